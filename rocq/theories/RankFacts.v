(** Ranked builders: no re-entrance, bounded recursion; irrelevance of fuel. *)
From Verif Require Export DepFacts.
From stdpp Require Import relations.

Section RankFacts.
Context (E : env).
Notation prim := (prim E).
Notation prims := (rtc prim).

(** ** More fuel changes nothing *)
Lemma get_with_more bld bld' h o s :
  (∀ o s, bld o s = NoFuel ∨ bld' o s = bld o s) →
  get_with E bld h o s = NoFuel ∨ get_with E bld' h o s = get_with E bld h o s.
Proof.
  intros H. unfold get_with. destruct (promise o s) as [[d a]|]; [|auto]. destruct (how_legal E h); [|auto].
  destruct (lookup_art _ _ _ _); [auto| |auto]. destruct (H o s) as [->| ->]; auto.
Qed.
Lemma exec_more bld bld' u ua t p s :
  (∀ o s, bld o s = NoFuel ∨ bld' o s = bld o s) →
  exec E bld u ua t p s = NoFuel ∨ exec E bld' u ua t p s = exec E bld u ua t p s.
Proof.
  intros H. revert s. induction p as [r| |h w k IH|k IH|v p IH|k IH|v k IH|d k IH|w p IH] using prog_ind; intros s; cbn [exec]; auto.
  - unfold resolve_with. destruct (promise w s) as [[d wa]|]; [|auto].
    destruct (track_dependency _ _ _ _ _) as [c|pk c|]; [|auto..].
    destruct (get_with_more bld bld' h w (log (EResolve u w) (set_ch c s)) H) as [-> | ->]; [auto|].
    destruct (get_with _ _ _ _ _); auto.
  - destruct (my_state _ _ _ _); auto.
  - destruct (my_state _ _ _ _); auto.
  - destruct (alloc E d s) as [[o s1]|]; auto.
  - destruct (drop_obj w s); auto.
Qed.
Lemma build_more n m o s : n ≤ m → build E n o s = NoFuel ∨ build E m o s = build E n o s.
Proof.
  revert m o s. induction n as [|n IH]; intros m o s Hle; [by left|]. destruct m as [|m]; [lia|].
  cbn [build]. destruct (promise o s) as [[[aty sty init body] a]|]; [|auto].
  destruct (e_dbg E && _); [auto|]. destruct (ensure_dyn_state _ _ _ _ _) as [c2 [k|v]]; [auto|].
  destruct (exec_more (build E n) (build E m) o a sty body (log (ECall o) (set_reent (reent s || bool_decide (o ∈ stack s)) (set_stack (o :: stack s) (set_ch c2 s))))) as [-> | ->].
  - intros o' s'. apply IH. lia.
  - by left.
  - by right.
Qed.
Lemma step_more n m x s : n ≤ m → step E n x s = NoFuel ∨ step E m x s = step E n x s.
Proof.
  intros Hle. destruct x as [d|o|h o|o f|h o|o f|o|o f|o|o|o| | | |o| ]; cbn [step]; auto.
  - destruct (get_with_more (build E n) (build E m) h o s) as [H|H]; [intros; by apply build_more| |];
      unfold get; rewrite H; auto.
  - unfold op_get_mut. destruct (e_kind E); [auto|]. destruct (promise o s) as [[d a]|]; [|auto].
    destruct (lookup_mut _ _ _ _ _) as [[c|k c|] [k'| |b]]; auto.
    destruct (build_more n m o (tock (set_ch c s)) Hle) as [-> | ->]; auto.
Qed.

(** ** Ranks *)
Lemma prog_bdef_ind (P : prog → Prop) (Q : bdef → Prop) :
  (∀ r, P (PRet r)) → P PPanic → (∀ h w k, (∀ r, P (k r)) → P (PResolve h w k)) →
  (∀ k, (∀ v, P (k v)) → P (PState k)) → (∀ v p, P p → P (PSetState v p)) →
  (∀ k, (∀ n, P (k n)) → P (PAsk k)) → (∀ v k, (∀ b, P (k b)) → P (PNewBin v k)) →
  (∀ d k, Q d → (∀ o, P (k o)) → P (PNew d k)) → (∀ w p, P p → P (PDrop w p)) →
  (∀ aty sty init body, P body → Q (BDef aty sty init body)) →
  (∀ p, P p) ∧ (∀ d, Q d).
Proof.
  intros. pose (fix fp (p : prog) : P p := match p with
    | PRet r => H r | PPanic => H0 | PResolve h w k => H1 h w k (λ r, fp (k r)) | PState k => H2 k (λ v, fp (k v))
    | PSetState v p => H3 v p (fp p) | PAsk k => H4 k (λ n, fp (k n)) | PNewBin v k => H5 v k (λ b, fp (k b))
    | PNew d k => H6 d k (fd d) (λ o, fp (k o)) | PDrop w p => H7 w p (fp p) end
   with fd (d : bdef) : Q d := match d with BDef aty sty init body => H8 aty sty init body (fp body) end for fp) as fp.
  split; [exact fp|]. intros [aty sty init body]. apply H8, fp.
Qed.

Lemma ranked_mono_both :
  (∀ p R R' r, R ⊆ R' → ranked_prog R r p → ranked_prog R' r p) ∧
  (∀ d R R' r, R ⊆ R' → ranked_bdef R r d → ranked_bdef R' r d).
Proof.
  apply prog_bdef_ind; cbn; intros; eauto.
  - destruct H1 as [(rw & Hw & Hlt) Hk]. split; [|eauto]. exists rw. split; [|done]. by eapply lookup_weaken.
  - destruct H2 as (rd & Hd & Hk). exists rd. split; [eauto|]. intros o Ho. eapply H0; [|apply Hk].
    + by apply insert_mono.
    + by eapply lookup_weaken_None.
Qed.
Lemma ranked_bdef_mono d R R' r : R ⊆ R' → ranked_bdef R r d → ranked_bdef R' r d.
Proof. apply ranked_mono_both. Qed.
Lemma ranked_prog_mono p R R' r : R ⊆ R' → ranked_prog R r p → ranked_prog R' r p.
Proof. apply ranked_mono_both. Qed.

(** Only [objs] matters. *)
Lemma ranks_objs R s s' : objs s' = objs s → ranks R s → ranks R s'.
Proof. unfold ranks, at_addr. by intros ->. Qed.

Lemma ranks_alloc R s d r o s' :
  objs_num s → ranks R s → ranked_bdef R r d → alloc E d s = Some (o, s') →
  R !! o = None ∧ ranks (<[o := r]> R) s'.
Proof.
  intros Hn [H1 H2] Hd Ha. apply alloc_Some in Ha as (-> & -> & _).
  assert (R !! nobj s = None) as HR.
  { destruct (R !! nobj s) eqn:HR; [|done]. destruct (proj1 (H1 (nobj s))) as [x Hx]; [eauto|]. apply Hn in Hx. lia. }
  split; [done|]. assert (R ⊆ <[nobj s := r]> R) as Hsub by (by apply insert_subseteq).
  split; cbn.
  - intros o. rewrite !lookup_insert_is_Some'. by rewrite H1.
  - intros o d' a. unfold at_addr; cbn. rewrite lookup_insert_Some. intros [[<- [= <- <-]]|[Hne Ho]].
    + exists r. rewrite lookup_insert. split; [done|]. by eapply ranked_bdef_mono.
    + destruct (H2 o d' a Ho) as (r' & Hr' & Hd'). exists r'. rewrite lookup_insert_ne by done. split; [done|].
      by eapply ranked_bdef_mono.
Qed.

(** Everything on the stack has rank above [r]. *)
Definition above (R : gmap obj nat) (r : nat) (S : list obj) : Prop :=
  ∀ x, x ∈ S → ∃ rx, R !! x = Some rx ∧ r < rx.
Lemma above_mono R R' r S : R ⊆ R' → above R r S → above R' r S.
Proof. intros Hs H x Hx. destruct (H x Hx) as (rx & ? & ?). exists rx. split; [|done]. by eapply lookup_weaken. Qed.

Definition fine {A} (R : gmap obj nat) (s : st) (x : outcome A) : Prop :=
  x ≠ NoFuel ∧ (∀ a s', x = Done a s' → stack s' = stack s) ∧
  ∀ s', ends x s' → reent s' = reent s ∧ objs_num s' ∧ ∃ R', R ⊆ R' ∧ ranks R' s'.
Definition bld_fine (n : nat) (bld : obj → st → outcome bres) : Prop :=
  ∀ R r o s, ranks R s → objs_num s → R !! o = Some r → r < n → above R r (stack s) → fine R s (bld o s).

Lemma fine_illegal {A} R s : fine R s (@Illegal A).
Proof. split; [done|]. split; [done|]. intros s' [[? ?]|[? ?]]; done. Qed.
Lemma fine_done {A} R s (a : A) s' : stack s' = stack s → reent s' = reent s → objs_num s' → ranks R s' → fine R s (Done a s').
Proof.
  intros H1 H2 H3 H4. split; [done|]. split; [by intros ?? [= _ <-]|].
  intros s'' [[? [= _ <-]]|[? ?]]; [|done]. split_and!; [done..|]. by exists R.
Qed.
Lemma fine_panic {A} R s k s' : reent s' = reent s → objs_num s' → ranks R s' → fine R s (@Panic A k s').
Proof.
  intros H2 H3 H4. split; [done|]. split; [done|].
  intros s'' [[? ?]|[? [= _ <-]]]; [done|]. split_and!; [done..|]. by exists R.
Qed.

Lemma get_with_fine n bld R r h o s :
  bld_fine n bld → ranks R s → objs_num s → R !! o = Some r → r < n → above R r (stack s) →
  fine R s (get_with E bld h o s).
Proof.
  intros Hb HR Hn Ho Hr Hab. unfold get_with. destruct (promise o s) as [[d a]|]; [|apply fine_illegal].
  destruct (how_legal E h); [|apply fine_illegal].
  destruct (lookup_art _ _ _ _); [by apply fine_panic| |by apply fine_done].
  destruct (Hb R r o s HR Hn Ho Hr Hab) as (H1 & H2 & H3).
  destruct (bld o s) as [[e|e] s'|k s'| |]; [..|done|apply fine_illegal].
  - destruct (H3 s') as (G1 & G2 & R' & G3 & G4); [left; eauto|]. pose proof (H2 _ _ eq_refl) as G0.
    destruct (_ =? _)%N.
    + split; [done|]. split; [by intros ?? [= _ <-]|]. intros s'' [[? [= _ <-]]|[? ?]]; [|done]. eauto 10.
    + split; [done|]. split; [done|]. intros s'' [[? ?]|[? [= _ <-]]]; [done|]. eauto 10.
  - destruct (H3 s') as (G1 & G2 & R' & G3 & G4); [left; eauto|]. pose proof (H2 _ _ eq_refl) as G0.
    split; [done|]. split; [by intros ?? [= _ <-]|]. intros s'' [[? [= _ <-]]|[? ?]]; [|done]. eauto 10.
  - destruct (H3 s') as (G1 & G2 & R' & G3 & G4); [right; eauto|].
    split; [done|]. split; [done|]. intros s'' [[? ?]|[? [= _ <-]]]; [done|]. eauto 10.
Qed.

Lemma fine_trans {A} R R1 s s1 (x : outcome A) :
  R ⊆ R1 → stack s1 = stack s → reent s1 = reent s → fine R1 s1 x → fine R s x.
Proof.
  intros Hs H1 H2 (F1 & F2 & F3). split; [done|]. split; [intros; rewrite <- H1; eauto|].
  intros s' He. destruct (F3 s' He) as (G1 & G2 & R' & G3 & G4). split_and!; [congruence|done|].
  exists R'. split; [by etrans|done].
Qed.

Lemma exec_fine n bld u ua t r S p R s :
  bld_fine n bld → r ≤ n → ranks R s → objs_num s → stack s = u :: S → R !! u = Some r → above R r S →
  ranked_prog R r p → fine R s (exec E bld u ua t p s).
Proof.
  intros Hb Hrn. revert R s.
  induction p as [res| |h w k IH|k IH|v p IH|k IH|v k IH|d k IH|w p IH] using prog_ind; intros R s HR Hn Hst Hu Hab Hp; cbn [exec].
  - by apply fine_done.
  - by apply fine_panic.
  - cbn in Hp. destruct Hp as [(rw & Hw & Hlt) Hk]. unfold resolve_with.
    destruct (promise w s) as [[d wa]|]; [|apply fine_illegal].
    unfold track_dependency. destruct (e_dbg E && _); [by apply fine_panic|].
    set (s1 := log _ _).
    assert (above R rw (stack s1)) as Hab1.
    { intros x Hx. change (x ∈ stack s) in Hx. rewrite Hst in Hx. apply elem_of_cons in Hx as [->|Hx].
      - exists r. split; [done|lia].
      - destruct (Hab x Hx) as (rx & ? & ?). exists rx. split; [done|lia]. }
    assert (fine R s1 (get_with E bld h w s1)) as (F1 & F2 & F3).
    { eapply (get_with_fine n bld R rw); try done. lia. }
    destruct (get_with E bld h w s1) as [rv s2|pk s2| |]; [..|done|apply fine_illegal].
    + destruct (F3 s2) as (G1 & G2 & R' & G3 & G4); [left; eauto|]. pose proof (F2 _ _ eq_refl) as G0.
      eapply (fine_trans R R' s (log (EGot u w rv) s2)); [done|done|done|].
      apply IH; try done.
      * cbn. by rewrite G0.
      * by eapply lookup_weaken.
      * by eapply above_mono.
      * eapply ranked_prog_mono; [done|apply Hk].
    + destruct (F3 s2) as (G1 & G2 & R' & G3 & G4); [right; eauto|].
      split; [done|]. split; [done|]. intros s'' [[? ?]|[? [= _ <-]]]; [done|]. eauto 10.
  - destruct (my_state _ _ _ _) as [pk|v]; [by apply fine_panic|]. apply IH; done.
  - destruct (my_state _ _ _ _) as [pk|v']; [by apply fine_panic|].
    eapply (fine_trans R R); [done| | |apply IH; try done]; done.
  - eapply (fine_trans R R); [done| | |apply IH; try done]; done.
  - eapply (fine_trans R R); [done| | |apply IH; try done]; done.
  - cbn in Hp. destruct Hp as (rd & Hd & Hk). destruct (alloc E d s) as [[o s1]|] eqn:Ha; [|apply fine_illegal].
    destruct (ranks_alloc R s d rd o s1 Hn HR Hd Ha) as [HRo HR1].
    assert (R ⊆ <[o := rd]> R) as Hsub by (by apply insert_subseteq).
    apply alloc_Some in Ha as (-> & -> & _).
    eapply (fine_trans R _); [exact Hsub| | |apply IH]; try done.
    + intros o x. cbn. rewrite lookup_insert_Some. intros [[<- _]|[_ Ho%Hn]]; lia.
    + by eapply lookup_weaken.
    + by eapply above_mono.
    + by apply Hk.
  - destruct (drop_obj w s) as [s1|] eqn:Ha; [|apply fine_illegal]. apply drop_Some in Ha as (_ & _ & ->).
    eapply (fine_trans R R); [done| | |apply IH; try done]; done.
Qed.

Lemma build_fine n : bld_fine n (build E n).
Proof.
  induction n as [|n IH]; intros R r o s HR Hn Ho Hr Hab; [lia|]. cbn [build].
  destruct (promise o s) as [[[aty sty init body] a]|] eqn:Hp; [|apply fine_illegal].
  destruct (e_dbg E && _); [by apply fine_panic|].
  destruct (ensure_dyn_state _ _ _ _ _) as [c2 [k|v]]; [by apply fine_panic|].
  assert (o ∉ stack s) as Hno.
  { intros Hin. destruct (Hab o Hin) as (rx & Hrx & ?). rewrite Ho in Hrx. injection Hrx as <-. lia. }
  rewrite (bool_decide_eq_false_2 (o ∈ stack s)) by done. rewrite orb_false_r. set (s1 := log _ _).
  assert (fine R s1 (exec E (build E n) o a sty body s1)) as (F1 & F2 & F3).
  { eapply (exec_fine n _ o a sty r (stack s)); try done; [lia|].
    apply promise_Some in Hp as [_ Hp]. destruct HR as [_ HR]. destruct (HR o _ a Hp) as (r' & Hr' & Hd').
    assert (r' = r) as -> by congruence. exact Hd'. }
  destruct (exec E (build E n) o a sty body s1) as [[b|e] s2|k s2| |]; [..|done|apply fine_illegal].
  - destruct (F3 s2) as (G1 & G2 & R' & G3 & G4); [left; eauto|].
    cbn [artifacts set_artifacts]. rewrite lookup_insert.
    split; [done|]. split; [by intros ?? [= _ <-]|]. intros s'' [[? [= _ <-]]|[? ?]]; [|done].
    split_and!; [done..|]. by exists R'.
  - destruct (F3 s2) as (G1 & G2 & R' & G3 & G4); [left; eauto|].
    split; [done|]. split; [by intros ?? [= _ <-]|]. intros s'' [[? [= _ <-]]|[? ?]]; [|done].
    split_and!; [done..|]. by exists R'.
  - destruct (F3 s2) as (G1 & G2 & R' & G3 & G4); [right; eauto|].
    split; [done|]. split; [done|]. intros s'' [[? ?]|[? [= _ <-]]]; [done|]. split_and!; [done..|]. by exists R'.
Qed.

Lemma get_ranked n R r h o s :
  Inv s → stack s = [] → ranks R s → R !! o = Some r → r < n →
  step E n (OGet h o) s ≠ NoFuel ∧
  ∀ s', goes (step E n (OGet h o) s) s' → reent s' = reent s ∧ ∃ R', R ⊆ R' ∧ ranks R' s'.
Proof.
  intros I Hst HR Ho Hr. destruct (get_with_fine n (build E n) R r h o s) as (F1 & F2 & F3); try done.
  - apply build_fine.
  - apply (i_num _ I).
  - rewrite Hst. intros x Hx. by apply elem_of_nil in Hx.
  - cbn [step]. unfold get. destruct (get_with E (build E n) h o s) as [rv s1|k s1| |]; try done.
    + split; [done|]. intros s' [[? [= _ <-]]|(? & ? & ?)]; [|done]. destruct (F3 s1) as (? & _ & ?); [left; eauto|done].
    + split; [done|]. intros s' [[? ?]|(? & [= _ <-] & ?)]; [done|]. destruct (F3 s1) as (? & _ & ?); [right; eauto|done].
    + split; [done|]. intros s' [[? ?]|(? & ? & ?)]; done.
Qed.

(** Without builds nothing runs out of fuel. *)
Lemma inv_each_no_fuel dbg pr i l c : inv_each dbg pr i l c ≠ CFuel.
Proof.
  revert i c. induction l as [|x l IH]; intros i c; cbn [inv_each]; [done|].
  pose proof (invalidate_no_fuel dbg (pr i) x c). destruct (invalidate_by_id _ _ _ _); [apply IH|done..].
Qed.
Lemma lookup_mut_no_fuel dbg pr a t c r : lookup_mut dbg pr a t c ≠ (CFuel, r).
Proof.
  unfold lookup_mut, invalidate_dependents. destruct (dependents c !! a) as [X|].
  - pose proof (inv_each_no_fuel dbg pr 1 (iter_order (pr 0 0) X) (set_dependents (delete a) c)) as H.
    destruct (inv_each _ _ _ _ _); [|done..]. destruct (dbg && _); [done|].
    destruct (artifacts _ !! a); [|done]. by destruct (_ =? _)%N.
  - destruct (dbg && _); [done|]. destruct (artifacts _ !! a); [|done]. by destruct (_ =? _)%N.
Qed.
Lemma gc_loop_no_fuel dbg pr i l c : gc_loop dbg pr i l c ≠ CFuel.
Proof.
  revert i c. induction l as [|x l IH]; intros i c; cbn [gc_loop]; [done|].
  pose proof (invalidate_no_fuel dbg (pr i) x c). destruct (invalidate_by_id _ _ _ _); [apply IH|done..].
Qed.
Lemma gc_no_fuel dbg pr al c : garbage_collection dbg pr al c ≠ CFuel.
Proof.
  unfold garbage_collection. destruct (dbg && _); [done|]. destruct (forallb _ _); [|done]. apply gc_loop_no_fuel.
Qed.

(** Calls that build nothing. *)
Definition buildless (x : op) : Prop := match x with OGet _ _ | OGetMut _ _ => False | _ => True end.
Lemma step_no_fuel n x s : buildless x → step E n x s ≠ NoFuel.
Proof.
  destruct x as [d|o|h o|o f|h o|o f|o|o f|o|o|o| | | |o| ]; intros Hx; cbn [step]; try done.
  - by destruct (alloc E d s) as [[]|].
  - by destruct (drop_obj o s).
  - destruct (promise o s) as [[d a]|]; [|done]. destruct (how_legal E h); [|done]. by destruct (lookup_art _ _ _ _).
  - unfold op_lookup_mut. destruct (e_kind E); [done|]. destruct (promise o s) as [[d a]|]; [|done].
    pose proof (lookup_mut_no_fuel (e_dbg E) (prio E s) a (bd_aty d) (ch s)) as H.
    destruct (lookup_mut _ _ _ _ _) as [[c|k c|] [k'| |b]]; try done; by destruct (H _ eq_refl).
  - destruct (promise o s) as [[d a]|]; [|done]. by destruct (ensure_dyn_state _ _ _ _ _) as [c [k|v]].
  - destruct (promise o s) as [[d a]|]; [|done].
    pose proof (invalidate_no_fuel (e_dbg E) (prio E s 0) a (ch s)) as H. destruct (invalidate_by_id _ _ _ _); try done.
    by destruct (ensure_dyn_state _ _ _ _ _) as [? [k|v]].
  - destruct (promise o s) as [[d a]|]; [|done]. by destruct (get_dyn_state _ _ _ _).
  - destruct (promise o s) as [[d a]|]; [|done].
    pose proof (invalidate_no_fuel (e_dbg E) (prio E s 0) a (ch s)) as H. by destruct (invalidate_by_id _ _ _ _).
  - destruct (promise o s) as [[d a]|]; [|done]. unfold purge.
    match goal with |- context [invalidate_by_id ?A ?B ?C ?D] => pose proof (invalidate_no_fuel A B C D) as H;
      by destruct (invalidate_by_id A B C D) end.
  - pose proof (gc_no_fuel (e_dbg E) (prio E s) (alive s) (ch s)) as H. by destruct (garbage_collection _ _ _ _).
  - by destruct (promise o s) as [[d a]|].
Qed.
Lemma step_objs n x s s' :
  Inv s → stack s = [] → buildless x → (∀ d, x ≠ OAlloc d) → goes (step E n x s) s' →
  objs s' = objs s ∧ reent s' = reent s.
Proof.
  intros I Hst Hb Hna Hg. pose proof (step_effect E n x s s' I Hst Hg) as He.
  assert (∀ l, adds l s s' → reent s' = reent s) as Ha by (by intros l [_ ?]).
  destruct x as [d|o|h o|o f|h o|o f|o|o f|o|o|o| | | |o| ]; cbn [effect_of buildless] in He, Hb; try done; try (by subst).
  - by destruct (Hna d).
  - unfold goes in Hg. cbn [step] in Hg. destruct (drop_obj o s) as [s1|] eqn:Hd; [|by gd].
    destruct Hg as [[? [= _ <-]]|(? & ? & ?)]; [|done]. by apply drop_Some in Hd as (_ & _ & ->).
  - destruct He as (_ & _ & H1 & [[_ Hw]|[_ Hf]]); split; eauto; [apply (wr_objs _ _ _ _ Hw)|apply (fg_objs _ _ _ _ Hf)].
  - destruct He as (_ & [->|(_ & Hs & H1)]); [done|]. split; [apply (ss_objs _ _ _ _ Hs)|eauto].
  - destruct He as (_ & s1 & Hf & H1 & Hs). split; [|eauto]. rewrite (ss_objs _ _ _ _ Hs). apply (fg_objs _ _ _ _ Hf).
  - destruct He as (_ & Hf & H1). split; [apply (fg_objs _ _ _ _ Hf)|eauto].
  - destruct He as (_ & Hf & H1). split; [apply (fg_objs _ _ _ _ Hf)|eauto].
  - destruct He as (Hf & H1). split; [apply (fg_objs _ _ _ _ Hf)|eauto].
  - destruct He as (Hf & H1). split; [apply (fg_objs _ _ _ _ Hf)|eauto].
  - destruct He as [(Hf & H1)| ->]; [|done]. split; [apply (fg_objs _ _ _ _ Hf)|eauto].
Qed.

(** All calls: enough fuel exists. *)
Lemma step_ranked x s R :
  Inv s → stack s = [] → ranks R s →
  (∃ m, ∀ n, m ≤ n → step E n x s ≠ NoFuel) ∧
  (∀ n s', goes (step E n x s) s' → ranked_op s x → reent s' = reent s ∧ ∃ R', ranks R' s').
Proof.
  intros I Hst HR.
  assert (buildless x ∨ (∃ h o, x = OGet h o) ∨ (∃ o f, x = OGetMut o f)) as [Hb|[(h & o & ->)|(o & f & ->)]].
  { destruct x; cbn; eauto 10. }
  - split; [exists 0; intros n _; by apply step_no_fuel|]. intros n s' Hg Hop.
    assert ((∃ d, x = OAlloc d) ∨ ∀ d, x ≠ OAlloc d) as [[d ->]|Hna] by (destruct x; eauto).
    + clear R HR. cbn in Hop. destruct Hop as (R & r & HR & Hd). unfold goes in Hg. cbn [step] in Hg.
      destruct (alloc E d s) as [[o s1]|] eqn:Ha; [|by gd]. destruct Hg as [[? [= _ <-]]|(? & ? & ?)]; [|done].
      destruct (ranks_alloc R s d r o s1 (i_num _ I) HR Hd Ha) as [H1 H2].
      split; [by apply alloc_Some in Ha as (-> & -> & _)|]. eauto.
    + destruct (step_objs n x s s' I Hst Hb Hna Hg) as [Ho Hr]. split; [done|]. exists R. by eapply ranks_objs.
  - destruct (R !! o) as [r|] eqn:Hr.
    + assert (∀ n, S r ≤ n → step E n (OGet h o) s ≠ NoFuel ∧
        ∀ s', goes (step E n (OGet h o) s) s' → reent s' = reent s ∧ ∃ R', R ⊆ R' ∧ ranks R' s') as Hall.
      { intros n Hn. by apply (get_ranked n R r). }
      split; [exists (S r); intros n Hn; by apply Hall|]. intros n s' Hg _.
      destruct (step_more n (max n (S r)) (OGet h o) s) as [H|H]; [lia|unfold goes in Hg; rewrite H in Hg; by gd|].
      rewrite <- H in Hg. destruct (Hall (max n (S r)) ltac:(lia)) as [_ H2].
      destruct (H2 s' Hg) as (? & R' & ? & ?). eauto.
    + assert (∀ n, step E n (OGet h o) s = Illegal) as Hill.
      { intros n. cbn [step]. unfold get, get_with. destruct (promise o s) as [[d a]|] eqn:Hp; [|done].
        apply promise_Some in Hp as [_ Hp]. destruct (proj2 (proj1 HR o)) as [r Hr']; [eauto|]. congruence. }
      split; [exists 0; intros n _; by rewrite Hill|]. intros n s' Hg. rewrite Hill in Hg. unfold goes in Hg. by gd.
  - destruct (R !! o) as [r|] eqn:Hr.
    + assert (∀ n, S r ≤ n → step E n (OGetMut o f) s ≠ NoFuel ∧
        ∀ s', goes (step E n (OGetMut o f) s) s' → reent s' = reent s ∧ ∃ R', ranks R' s') as Hall.
      { intros n Hn. cbn [step]. unfold op_get_mut, goes. destruct (e_kind E); [by split; [|intros; gd]|].
        destruct (promise o s) as [[d a]|] eqn:Hp; [|by split; [|intros; gd]].
        pose proof (lookup_mut_no_fuel (e_dbg E) (prio E s) a (bd_aty d) (ch s)) as H1.
        destruct (lookup_mut _ _ _ _ _) as [[c|k c|] [k'| |b]];
          try (by destruct (H1 _ eq_refl)).
        - split; [done|]. intros s' Hg. gd. split; [done|]. exists R. by eapply ranks_objs.
        - set (s1 := tock (set_ch c s)).
          destruct (build_fine n R r o s1) as (F1 & F2 & F3); try done.
          { exact (i_num _ I). } { change (above R r (stack s)). rewrite Hst. intros x Hx. by apply elem_of_nil in Hx. }
          destruct (build E n o s1) as [[e|e] s2|k s2| |]; try done.
          + destruct (F3 s2) as (G1 & _ & R' & _ & G2); [left; eauto|]. destruct (_ =? _)%N.
            * split; [done|]. intros s' Hg. gd. split; [done|]. exists R'. by eapply ranks_objs.
            * split; [done|]. intros s' Hg. gd.
          + destruct (F3 s2) as (G1 & _ & R' & _ & G2); [left; eauto|].
            split; [done|]. intros s' Hg. gd. eauto.
          + destruct (F3 s2) as (G1 & _ & R' & _ & G2); [right; eauto|].
            split; [done|]. intros s' Hg. gd. eauto.
          + split; [done|]. intros; gd.
        - set (s1 := tock (set_ch c s)).
          pose proof (lookup_mut_no_fuel (e_dbg E) (prio E s1) a (bd_aty d) (ch s1)) as H2.
          destruct (lookup_mut (e_dbg E) (prio E s1) a (bd_aty d) (ch s1)) as [[c2|k2 c2|] [k2'| |b2]];
            try (by destruct (H2 _ eq_refl)); (split; [done|]); intros s' Hg; gd;
            (split; [done|]; exists R; by eapply ranks_objs).
        - split; [done|]. intros s' Hg. gd. split; [done|]. exists R. by eapply ranks_objs.
        - split; [done|]. intros s' Hg. gd. split; [done|]. exists R. by eapply ranks_objs.
        - split; [done|]. intros s' Hg. gd. split; [done|]. exists R. by eapply ranks_objs. }
      split; [exists (S r); intros n Hn; by apply Hall|]. intros n s' Hg _.
      destruct (step_more n (max n (S r)) (OGetMut o f) s) as [H|H]; [lia|unfold goes in Hg; rewrite H in Hg; by gd|].
      rewrite <- H in Hg. destruct (Hall (max n (S r)) ltac:(lia)) as [_ H2]. eauto.
    + assert (∀ n, step E n (OGetMut o f) s = Illegal) as Hill.
      { intros n. cbn [step]. unfold op_get_mut. destruct (e_kind E); [done|].
        destruct (promise o s) as [[d a]|] eqn:Hp; [|done].
        apply promise_Some in Hp as [_ Hp]. destruct (proj2 (proj1 HR o)) as [r Hr']; [eauto|]. congruence. }
      split; [exists 0; intros n _; by rewrite Hill|]. intros n s' Hg. rewrite Hill in Hg. unfold goes in Hg. by gd.
Qed.

Lemma reach_ranked s : reach_by E ranked_op s → reent s = false ∧ ∃ R, ranks R s.
Proof.
  intros [l Hr]. refine (runs_inv E ranked_op (λ x, reent x = false ∧ ∃ R, ranks R x) init_st l s Inv_init eq_refl _ _ Hr).
  { split; [done|]. exists ∅. split; [intros o; cbn; rewrite !lookup_empty; split; by intros [? ?]|].
    intros o d a H. unfold at_addr in H. cbn in H. by rewrite lookup_empty in H. }
  intros n x s1 s2 I1 Hst1 [H1 [R HR]] Hx Hg. destruct (step_ranked x s1 R I1 Hst1 HR) as [_ H].
  destruct (H n s2 Hg Hx) as [H2 [R' HR']]. split; [cbn; congruence|]. exists R'. by eapply ranks_objs.
Qed.
End RankFacts.
