(** Known builders along histories; the log does not influence anything; what
    lies between two builds. *)
From Verif Require Export DepFacts Facts3.
From stdpp Require Import relations.

(** ** The log is never read *)
Section Log.
Context (E : env).

(** [s] with an older log [t], and with re-entrance [r] remembered. *)
Definition older (t : list event) (r : bool) (s : st) : st :=
  St (ch s) (objs s) (alive s) (nobj s) (nbin s) (tick s) (stack s) (r || reent s) (trace s ++ t).
Definition olderx {A} (t : list event) (r : bool) (x : outcome A) : outcome A :=
  match x with
  | Done a s => Done a (older t r s)
  | Panic k s => Panic k (older t r s)
  | NoFuel => NoFuel
  | Illegal => Illegal
  end.

Section bld.
Context (t : list event) (r : bool).
Context (b : obj → st → outcome bres) (Hb : ∀ o s, b o (older t r s) = olderx t r (b o s)).

Lemma get_with_older h o s : get_with E b h o (older t r s) = olderx t r (get_with E b h o s).
Proof.
  unfold get_with. change (promise o (older t r s)) with (promise o s).
  destruct (promise o s) as [[d a]|]; [|done]. destruct (how_legal E h); [|done].
  change (ch (older t r s)) with (ch s).
  destruct (lookup_art _ _ _ _); [done| |done]. rewrite Hb.
  destruct (b o s) as [[e|e] s'|k s'| |]; cbn [olderx]; try done. by destruct (_ =? _)%N.
Qed.
Lemma resolve_with_older u ua h w s :
  resolve_with E b u ua h w (older t r s) = olderx t r (resolve_with E b u ua h w s).
Proof.
  unfold resolve_with. change (promise w (older t r s)) with (promise w s).
  destruct (promise w s) as [[d a]|]; [|done]. change (ch (older t r s)) with (ch s).
  destruct (track_dependency _ _ _ _ _) as [c|k c|]; [|done..].
  change (log (EResolve u w) (set_ch c (older t r s))) with (older t r (log (EResolve u w) (set_ch c s))).
  rewrite get_with_older. by destruct (get_with E b h w _).
Qed.
Lemma exec_older u ua ty p : ∀ s, exec E b u ua ty p (older t r s) = olderx t r (exec E b u ua ty p s).
Proof.
  induction p as [x| |h w k IH|k IH|v p IH|k IH|v k IH|d k IH|w p IH] using prog_ind
    ; intros s; cbn [exec]; try done.
  - rewrite resolve_with_older. destruct (resolve_with E b u ua h w s); cbn [olderx]; try done; apply IH.
  - change (ch (older t r s)) with (ch s). destruct (my_state _ _ _ _); [done|apply IH].
  - change (ch (older t r s)) with (ch s). destruct (my_state _ _ _ _); [done|]. rewrite <- IH. done.
  - rewrite <- IH. done.
  - rewrite <- IH. done.
  - unfold alloc. cbn. destruct (_ || _); [done|]. rewrite <- IH. done.
  - unfold drop_obj. cbn. destruct (_ && _); [|done]. rewrite <- IH. done.
Qed.
End bld.

Lemma build_older t r n : ∀ o s, build E n o (older t r s) = olderx t r (build E n o s).
Proof.
  induction n as [|n IH]; intros o s; cbn [build]; [done|].
  change (promise o (older t r s)) with (promise o s).
  destruct (promise o s) as [[[aty sty init body] a]|]; [|done].
  change (ch (older t r s)) with (ch s).
  destruct (_ && _); [done|]. destruct (ensure_dyn_state _ _ _ _ _) as [c2 [k|v]]; [done|].
  match goal with |- match exec _ _ _ _ _ _ ?x with _ => _ end = _ =>
    assert (x = older t r (log (ECall o) (set_reent (reent s || bool_decide (o ∈ stack s)) (set_stack (o :: stack s) (set_ch c2 s))))) as -> end.
  { unfold older. cbn. by rewrite orb_assoc. }
  rewrite (exec_older t r _ IH). destruct (exec E (build E n) o a sty body _) as [[x|x] s1|k s1| |]; cbn [olderx]; try done.
  change (ch (older t r s1)) with (ch s1). by destruct (artifacts _ !! a).
Qed.
Lemma get_older t r n h o s : get E n h o (older t r s) = olderx t r (get E n h o s).
Proof. unfold get. apply get_with_older. apply build_older. Qed.

Lemma step_older t r n x s : step E n x (older t r s) = olderx t r (step E n x s).
Proof.
  destruct x as [d|o|h o|o f|h o|o f|o|o f|o|o|o| | | |o| ]; cbn [step]; try done.
  - unfold alloc. cbn. by destruct (_ || _).
  - unfold drop_obj. cbn. by destruct (_ && _).
  - rewrite get_older. by destruct (get E n h o s).
  - unfold op_get_mut. destruct (e_kind E); [done|]. change (promise o (older t r s)) with (promise o s).
    destruct (promise o s) as [[d a]|]; [|done].
    change (ch (older t r s)) with (ch s). change (prio E (older t r s)) with (prio E s).
    destruct (lookup_mut (e_dbg E) (prio E s) a (bd_aty d) (ch s)) as [[c|k c|] lr]; [|done..].
    destruct lr as [k| |b]; [done| |].
    + change (tock (set_ch c (older t r s))) with (older t r (tock (set_ch c s))).
      rewrite build_older. destruct (build E n o _) as [[e|e] s1|k s1| |]; cbn [olderx]; try done.
      by destruct (_ =? _)%N.
    + change (tock (set_ch c (older t r s))) with (older t r (tock (set_ch c s))).
      set (s1 := tock (set_ch c s)). change (ch (older t r s1)) with (ch s1).
      change (prio E (older t r s1)) with (prio E s1).
      by destruct (lookup_mut (e_dbg E) (prio E s1) a (bd_aty d) (ch s1)) as [[c1|k c1|] [k1| |b1]].
  - change (promise o (older t r s)) with (promise o s). destruct (promise o s) as [[d a]|]; [|done].
    destruct (how_legal E h); [|done]. change (ch (older t r s)) with (ch s). by destruct (lookup_art _ _ _ _).
  - unfold op_lookup_mut. destruct (e_kind E); [done|]. change (promise o (older t r s)) with (promise o s).
    destruct (promise o s) as [[d a]|]; [|done].
    change (ch (older t r s)) with (ch s). change (prio E (older t r s)) with (prio E s).
    by destruct (lookup_mut (e_dbg E) (prio E s) a (bd_aty d) (ch s)) as [[c1|k c1|] [k1| |b1]].
  - change (promise o (older t r s)) with (promise o s). destruct (promise o s) as [[d a]|]; [|done].
    change (ch (older t r s)) with (ch s). by destruct (ensure_dyn_state _ _ _ _ _) as [c [k|v]].
  - change (promise o (older t r s)) with (promise o s). destruct (promise o s) as [[d a]|]; [|done].
    change (ch (older t r s)) with (ch s). change (prio E (older t r s)) with (prio E s).
    destruct (invalidate_by_id _ _ _ _) as [c|k c|]; [|done..]. cbn.
    by destruct (ensure_dyn_state _ _ _ _ _) as [c1 [k|v]].
  - change (promise o (older t r s)) with (promise o s). destruct (promise o s) as [[d a]|]; [|done].
    change (ch (older t r s)) with (ch s). by destruct (get_dyn_state _ _ _ _).
  - change (promise o (older t r s)) with (promise o s). destruct (promise o s) as [[d a]|]; [|done].
    change (ch (older t r s)) with (ch s). change (prio E (older t r s)) with (prio E s).
    unfold lift. by destruct (invalidate_by_id _ _ _ _) as [c|k c|].
  - change (promise o (older t r s)) with (promise o s). destruct (promise o s) as [[d a]|]; [|done].
    change (ch (older t r s)) with (ch s). change (prio E (older t r s)) with (prio E s).
    unfold lift. by destruct (purge _ _ _ _) as [c|k c|].
  - change (ch (older t r s)) with (ch s). change (prio E (older t r s)) with (prio E s).
    change (alive (older t r s)) with (alive s).
    unfold lift. by destruct (garbage_collection _ _ _ _) as [c|k c|].
  - change (promise o (older t r s)) with (promise o s). by destruct (promise o s) as [[d a]|].
Qed.

(** Two states that differ only in the ghosts: each comes from a third one
    without log. *)
Definition unlogged (s : st) : st :=
  St (ch s) (objs s) (alive s) (nobj s) (nbin s) (tick s) (stack s) false [].
Lemma older_unlogged s : s = older (trace s) (reent s) (unlogged s).
Proof. destruct s. unfold older, unlogged. cbn. by rewrite orb_false_r. Qed.
Lemma same_log_unlogged s s' : same_but_log s s' ↔ unlogged s = unlogged s'.
Proof. split; [|intros [= ]; constructor; congruence]. intros [H1 H2 H3 H4 H5 H6 H7]. unfold unlogged. congruence. Qed.
Lemma unlogged_older t r s : unlogged (older t r s) = unlogged s.
Proof. done. Qed.

Lemma step_same_log n x s1 s2 :
  same_but_log s1 s2 →
  (∀ r s1', step E n x s1 = Done r s1' → ∃ s2', step E n x s2 = Done r s2' ∧ same_but_log s1' s2') ∧
  (∀ k s1', step E n x s1 = Panic k s1' → ∃ s2', step E n x s2 = Panic k s2' ∧ same_but_log s1' s2').
Proof.
  rewrite same_log_unlogged. intros Heq. rewrite (older_unlogged s1), (older_unlogged s2), Heq, !step_older.
  destruct (step E n x (unlogged s2)) as [a s|k s| |]; cbn [olderx]; split; intros ?? H; try done;
    injection H as <- <-; eexists; (split; [done|]); apply same_log_unlogged; by rewrite !unlogged_older.
Qed.

Lemma runs_same_log s1 s2 l s1' :
  same_but_log s1 s2 → runs E any_op s1 l s1' → ∃ s2', runs E any_op s2 l s2' ∧ same_but_log s1' s2'.
Proof.
  intros H. induction 1 as [|l s n x r s' Hr IH HP Hs|l s n x k s' Hr IH HP Hs Hk].
  - exists s2. split; [constructor|done].
  - destruct IH as (t & Ht & Hst). destruct (proj1 (step_same_log n x s t Hst) _ _ Hs) as (t' & Ht' & Hs').
    exists t'. split; [|done]. by eapply runs_done.
  - destruct IH as (t & Ht & Hst). destruct (proj2 (step_same_log n x s t Hst) _ _ Hs) as (t' & Ht' & [? ? ? ? ? ? ?]).
    exists (unwound t'). split; [by eapply runs_panic|]. by constructor.
Qed.
End Log.

Section More.
Context (E : env).
Local Notation prim := (Prims.prim E).
Local Notation prims := (rtc prim).

(** ** Known builders *)
Lemma cached_knows s o b : cached s o = Some b → knows s o.
Proof.
  unfold cached. destruct (objs s !! o) as [[d a]|] eqn:Ho; [|done].
  destruct (decide (known (ch s) !! a = Some o)); [|done]. intros _. by exists d, a.
Qed.
Lemma has_state_knows s o v : state_of s o = Some v → knows s o.
Proof.
  unfold state_of. destruct (objs s !! o) as [[d a]|] eqn:Ho; [|done].
  destruct (decide (known (ch s) !! a = Some o)); [|done]. intros _. by exists d, a.
Qed.
Lemma forgets_knows s F G s' w : forgets s F G s' → knows s' w ↔ knows s w ∧ ¬ G w.
Proof. intros H. apply (fg_knows _ _ _ _ H). Qed.

Lemma adds_same (l l' : list event) s s' : trace s' = l ++ trace s → trace s' = l' ++ trace s → l = l'.
Proof. intros -> H. by apply app_inv_tail in H. Qed.

Lemma get_mut_knows n o f s s' l w :
  Inv s → stack s = [] → goes (step E n (OGetMut o f) s) s' → trace s' = l ++ trace s →
  knows s' w ↔ knows s w ∨ w = o ∨ ∃ u, EResolve u w ∈ l.
Proof.
  intros I Hst Hg Hl. pose proof (step_effect E n _ s s' I Hst Hg) as He.
  cbn [effect_of] in He. destruct He as (Hlv & Hno & _).
  assert (e_kind E = Boxed) as Hk by (by eapply (mut_boxed E n (OGetMut o f)); [left|]).
  destruct (live_promise s o I Hlv) as (d & a & Hp).
  destruct (op_get_mut_effect E n o f s I Hst Hlv Hk) as (_ & H2 & H3).
  assert (depends s o o ∨ ¬ depends s o o) as Hdec.
  { pose proof (self_dependent s o d a I Hp). destruct (decide (dep_rel (ch s) a a)); tauto. }
  assert ((∃ b, cached s o = Some b ∧ ∀ u, ¬ depends s u o) ∨ (cached s o = None ∨ depends s o o)) as [(b & Hb & Hnd)|Hor].
  { destruct (cached s o) as [b|]; [|auto]. destruct Hdec as [|Hd]; [auto|]. left. exists b. split; [done|].
    intros u Hu. assert (u = o) as -> by auto. done. }
  - destruct (H2 b Hnd Hb) as (s1 & Heq & Hw & [Ht _]). unfold goes in Hg. rewrite Heq in Hg.
    destruct Hg as [[r [= _ <-]]|(? & ? & ?)]; [|done].
    assert (l = []) as -> by (by eapply adds_same). rewrite (wr_knows _ _ _ _ Hw).
    assert (knows s o) as Hko.
    { by apply cached_knows with b. }
    split; [auto|]. intros [?|[->|[u Hu]]]; [done..|]. by apply elem_of_nil in Hu.
  - destruct (H3 Hno Hor) as (s1 & I1 & Hst1 & [Ht1 _] & Hal & Hc1 & Hm).
    assert (knows s1 w ↔ knows s w) as <-.
    { destruct Hc1 as [[_ Hs]|[_ Hs]]; rewrite (forgets_knows _ _ _ _ _ Hs); tauto. }
    assert (∃ s2, goes (step E n (OGet HRef o) s1) s2 ∧ (knows s' w ↔ knows s2 w) ∧ trace s' = trace s2) as (s2 & Hg2 & -> & Ht2).
    { unfold goes in Hg. destruct (step E n (OGet HRef o) s1) as [r s2|k s2| |] eqn:Hq; [| |rewrite Hm in Hg; by gd..].
      - assert (step E n (OGetMut o f) s = Done r s2 ∨
          ∃ s3, step E n (OGetMut o f) s = Done r s3 ∧ writes s2 o f s3 ∧ adds [] s2 s3) as [Heq|(s3 & Heq & Hw & [Ha _])].
        { destruct r as [| |[b|v|e]| | | | |]; auto. }
        + rewrite Heq in Hg. destruct Hg as [[r' [= _ <-]]|(? & ? & ?)]; [|done].
          exists s2. split_and!; [left; eauto|done|done].
        + rewrite Heq in Hg. destruct Hg as [[r' [= _ <-]]|(? & ? & ?)]; [|done].
          exists s2. split_and!; [left; eauto|apply (wr_knows _ _ _ _ Hw)|done].
      - rewrite Hm in Hg. destruct Hg as [[r' ?]|(k' & [= <- <-] & Hres)]; [done|].
        exists s2. split_and!; [right; eauto|done|done]. }
    apply (get_learns E n HRef o s1 s2 l I1 Hst1 Hg2). rewrite <- Ht2, Hl. by rewrite Ht1.
Qed.

Lemma step_knows n x s s' l w :
  Inv s → stack s = [] → goes (step E n x s) s' → trace s' = l ++ trace s →
  knows s' w ↔ (knows s w ∧ ¬ unlearns E x s w) ∨ introduces x l w.
Proof.
  intros I Hst Hg Hl. pose proof (step_effect E n x s s' I Hst Hg) as He.
  destruct x as [d|o|h o|o f|h o|o f|o|o f|o|o|o| | | |o| ]; cbn [effect_of unlearns introduces] in He |- *.
  - assert (ch s' = ch s) as Hch.
    { unfold goes in Hg. cbn [step] in Hg. destruct (alloc E d s) as [[o1 s1]|] eqn:Ha; [|by gd].
      apply alloc_Some in Ha as (_ & Ha & _). by gd. }
    assert (knows s' w ↔ knows s w); [|tauto]. split; [|by apply (prims_knows E)].
    intros (d' & a & _ & Hk). rewrite Hch in Hk. by destruct (knows_known s a w I Hk) as (? & _ & ?).
  - assert (ch s' = ch s ∧ objs s' = objs s) as [Hch Hob].
    { unfold goes in Hg. cbn [step] in Hg. destruct (drop_obj o s) as [s1|] eqn:Ha; [|by gd].
      unfold drop_obj in Ha. destruct (_ && _); [|done]. injection Ha as <-. by gd. }
    assert (knows s' w ↔ knows s w); [|tauto]. unfold knows, at_addr. by rewrite Hch, Hob.
  - rewrite (get_learns E n h o s s' l I Hst Hg Hl). tauto.
  - rewrite (get_mut_knows n o f s s' l w I Hst Hg Hl). tauto.
  - subst s'. tauto.
  - destruct He as (_ & _ & _ & [[_ Hw]|[_ Hf]]); [rewrite (wr_knows _ _ _ _ Hw)|rewrite (fg_knows _ _ _ _ Hf)]; tauto.
  - destruct He as (Hlv & _). pose proof (dyn_state_effect E n o s I Hlv) as He. unfold goes in Hg.
    destruct (state_of s o) as [v|] eqn:Hso.
    + rewrite He in Hg. gd. assert (w = o → knows s' w); [|tauto]. intros ->. by apply has_state_knows with v.
    + destruct (initial s o) as [v|]; destruct He as (s1 & He & Hs); rewrite He in Hg;
        (assert (s1 = s') as -> by (by gd)); rewrite (ss_knows _ _ _ _ Hs); tauto.
  - destruct He as (_ & s1 & Hf & _ & Hs). rewrite (ss_knows _ _ _ _ Hs), (fg_knows _ _ _ _ Hf). tauto.
  - subst s'. tauto.
  - destruct He as (_ & Hf & _). rewrite (fg_knows _ _ _ _ Hf). tauto.
  - destruct He as (_ & Hf & _). rewrite (fg_knows _ _ _ _ Hf). assert (o = w ↔ w = o) by (split; congruence). tauto.
  - destruct He as (Hf & _). rewrite (fg_knows _ _ _ _ Hf). tauto.
  - destruct He as (Hf & _). rewrite (fg_knows _ _ _ _ Hf). tauto.
  - (* gc *)
    destruct Hg as [[r Hd]|(k & Hp & Hk)].
    + destruct (gc_done_effect E n s r s' I Hd) as [_ Hf]. rewrite (fg_knows _ _ _ _ Hf). unfold collected.
      assert (∃ m r s1, step E m OGc s = Done r s1) by eauto. tauto.
    + assert (¬ ∃ m r s1, step E m OGc s = Done r s1) as Hn.
      { intros (m & r & s1 & Hm). change (step E n OGc s = Done r s1) in Hm. congruence. }
      assert (knows s' w ↔ knows s w); [|tauto].
      destruct (gc_ok (e_dbg E) (prio E s) (alive s) (objs s) (ch s) (i_c _ I)) as [Hok Hno].
      cbn [step] in Hp. destruct (decide (leafs (ch s) ⊆ dom (known (ch s)))) as [Hsub|Hsub].
      * destruct (Hok Hsub) as (D & c' & Heq' & _). rewrite Heq' in Hp. done.
      * rewrite (Hno Hsub) in Hp. unfold lift in Hp. injection Hp as _ <-. done.
  - subst s'. tauto.
  - subst s'. tauto.
Qed.

(** [w] is known iff some call made it known and no later one forgot it. *)
Lemma knows_history s w :
  reachable E s →
  knows s w ↔ ∃ s0 n x s1 l0 l, reachable E s0 ∧ goes (step E n x s0) s1 ∧ trace s1 = l0 ++ trace s0 ∧
    introduces x l0 w ∧ runs E (λ t y, ¬ unlearns E y t w) (unwound s1) l s.
Proof.
  intros Hr0. split.
  - destruct Hr0 as [l Hr]. induction Hr as [|l s n x r s' Hr IH HP Hs|l s n x k s' Hr IH HP Hs Hk].
    + intros (d & a & H & _). unfold at_addr in H. cbn in H. by rewrite lookup_empty in H.
    + intros Hd. destruct (runs_Inv E any_op init_st l s Hr Inv_init eq_refl) as [I1 Hst1].
      assert (goes (step E n x s) s') as Hg by (left; eauto).
      destruct (step_new E n x s s' I1 Hst1 Hg) as [l0 Hl0].
      assert (unwound s' = s') as Heq.
      { destruct (step_Inv E n x s r s' I1 Hst1 Hs) as [_ Hst2]. destruct s'; cbn in *; by subst. }
      apply (step_knows n x s s' l0 w I1 Hst1 Hg Hl0) in Hd as [(Hd & Hu)|Hin].
      * destruct (IH Hd) as (s0 & m & y & s1 & l1 & l2 & H1 & H2 & H3 & H4 & H5).
        exists s0, m, y, s1, l1, ((x, Returned r) :: l2). split_and!; try done. by eapply runs_done.
      * exists s, n, x, s', l0, []. split_and!; try done; [by exists l|]. rewrite Heq. constructor.
    + intros Hd. change (knows s' w) in Hd. destruct (runs_Inv E any_op init_st l s Hr Inv_init eq_refl) as [I1 Hst1].
      assert (goes (step E n x s) s') as Hg by (right; eauto).
      destruct (step_new E n x s s' I1 Hst1 Hg) as [l0 Hl0].
      apply (step_knows n x s s' l0 w I1 Hst1 Hg Hl0) in Hd as [(Hd & Hu)|Hin].
      * destruct (IH Hd) as (s0 & m & y & s1 & l1 & l2 & H1 & H2 & H3 & H4 & H5).
        exists s0, m, y, s1, l1, ((x, Panicked k) :: l2). split_and!; try done. by eapply runs_panic.
      * exists s, n, x, s', l0, []. split_and!; try done; [by exists l|]. constructor.
  - intros (s0 & n & x & s1 & l0 & l & [h Hh] & Hg & Hl & Hin & Hr).
    destruct (runs_Inv E any_op init_st h s0 Hh Inv_init eq_refl) as [I0 Hst0].
    assert (Inv (unwound s1)) as I1 by (by eapply goes_Inv).
    refine (runs_inv E _ (λ x, knows x w) (unwound s1) l s I1 eq_refl _ _ Hr).
    + apply (step_knows n x s0 s1 l0 w I0 Hst0 Hg Hl). by right.
    + intros m y s2 s3 I2 Hst2 Hd Hu Hg2. destruct (step_new E m y s2 s3 I2 Hst2 Hg2) as [l1 Hl1].
      apply (step_knows m y s2 s3 l1 w I2 Hst2 Hg2 Hl1). left. done.
Qed.

(** ** Between two builds *)
Lemma between_builds s l s' o :
  Inv s → stack s = [] → cached s o ≠ None → runs E any_op s l s' → reent s' = false → builds s o < builds s' o →
  ∃ l1 s1 x y s2 l2, l = l2 ++ (x, y) :: l1 ∧ runs E any_op s l1 s1 ∧ runs E any_op s1 [(x, y)] s2 ∧
    runs E any_op s2 l2 s' ∧ cached s1 o ≠ None ∧ ¬ keeps o s1 x.
Proof.
  intros I Hst Hc Hr. 
  enough (reent s' = false →
    (cached s' o ≠ None ∧ builds s' o = builds s o) ∨
    ∃ l1 s1 x y s2 l2, l = l2 ++ (x, y) :: l1 ∧ runs E any_op s l1 s1 ∧ runs E any_op s1 [(x, y)] s2 ∧
      runs E any_op s2 l2 s' ∧ cached s1 o ≠ None ∧ ¬ keeps o s1 x) as H.
  { intros Hre Hb. destruct (H Hre) as [[_ ?]|?]; [lia|done]. }
  assert (∀ l s1 n x s2 y, runs E any_op s l s1 → goes (step E n x s1) s2 → runs E any_op s1 [(x, y)] (unwound s2) →
    (∀ P : st → op → Prop, P s1 x → runs E P s1 [(x, y)] (unwound s2)) →
    (reent s1 = false → (cached s1 o ≠ None ∧ builds s1 o = builds s o) ∨ 
      ∃ l1 t1 x y t2 l2, l = l2 ++ (x, y) :: l1 ∧ runs E any_op s l1 t1 ∧ runs E any_op t1 [(x, y)] t2 ∧
      runs E any_op t2 l2 s1 ∧ cached t1 o ≠ None ∧ ¬ keeps o t1 x) →
    reent s2 = false →
    (cached s2 o ≠ None ∧ builds s2 o = builds s o) ∨
    ∃ l1 t1 x' y' t2 l2, (x, y) :: l = l2 ++ (x', y') :: l1 ∧ runs E any_op s l1 t1 ∧ runs E any_op t1 [(x', y')] t2 ∧
      runs E any_op t2 l2 (unwound s2) ∧ cached t1 o ≠ None ∧ ¬ keeps o t1 x') as Hstep.
  { intros l0 s1 n x s2 y Hr1 Hg Hone Hk IH Hre.
    destruct (runs_Inv E any_op s l0 s1 Hr1 I Hst) as [I1 Hst1].
    destruct IH as [[Hc1 Hb1]|(l1 & t1 & x' & y' & t2 & l2 & -> & H1 & H2 & H3 & H4 & H5)].
    { by eapply (goes_reent E n x s1 s2). }
    - assert (keeps o s1 x → cached s2 o ≠ None ∧ builds s2 o = builds s1 o) as Hkeep.
      { intros Hkp. specialize (Hk (keeps o) Hkp).
        destruct (at_most_one_build E s1 _ (unwound s2) o I1 Hst1 Hk Hre) as [_ H].
        destruct (H Hc1) as [Hb _]. destruct (cached s1 o) as [b|] eqn:Hcb; [|done].
        destruct (keeps_runs E o s1 _ (unwound s2) b I1 Hst1 Hk Hcb) as [Hc2 _].
        change (cached (unwound s2) o) with (cached s2 o) in Hc2. change (builds (unwound s2) o) with (builds s2 o) in Hb.
        rewrite Hc2. done. }
      destruct (decide (builds s2 o = builds s1 o)) as [Hb|Hb].
      + destruct (cached s2 o) as [b|] eqn:Hc2.
        * left. split; [done|]. congruence.
        * right. exists l0, s1, x, y, (unwound s2), []. split_and!; try done; [constructor|]. tauto.
      + right. exists l0, s1, x, y, (unwound s2), []. split_and!; try done; [constructor|]. tauto.
    - right. exists l1, t1, x', y', t2, ((x, y) :: l2). split_and!; try done.
      exact (runs_trans E any_op t2 l2 s1 [(x, y)] (unwound s2) H3 Hone). }
  induction Hr as [|l s1 n x r s2 Hr IH HP Hs|l s1 n x k s2 Hr IH HP Hs Hk]; intros Hre.
  - left. done.
  - destruct (runs_Inv E any_op s l s1 Hr I Hst) as [I1 Hst1].
    assert (unwound s2 = s2) as Heq.
    { destruct (step_Inv E n x s1 r s2 I1 Hst1 Hs) as [_ Hst2]. destruct s2; cbn in *; by subst. }
    assert (∀ P : st → op → Prop, P s1 x → runs E P s1 [(x, Returned r)] (unwound s2)) as HPP.
    { intros P H. rewrite Heq. by eapply runs_done; [constructor|..]. }
    rewrite <- Heq. by apply (Hstep l s1 n x s2 (Returned r)); [|left; eauto|apply HPP|..].
  - assert (∀ P : st → op → Prop, P s1 x → runs E P s1 [(x, Panicked k)] (unwound s2)) as HPP.
    { intros P H. by eapply runs_panic; [constructor|..]. }
    by apply (Hstep l s1 n x s2 (Panicked k)); [|right; eauto|apply HPP|..].
Qed.
End More.
