(** The iteration order of hash maps and sets does not matter. *)
From Verif Require Export GcFacts.
From stdpp Require Import relations.

(** Two environments that differ at most in the iteration orders. *)
Record same_but_order (E E' : env) : Prop := {
  sb_ask : ∀ t, e_ask E t = e_ask E' t;
  sb_dbg : e_dbg E = e_dbg E';
  sb_kind : e_kind E = e_kind E';
}.

Section OrderFacts.
Context (E E' : env) (HE : same_but_order E E').

Lemma how_legal_order h : how_legal E h = how_legal E' h.
Proof. unfold how_legal. by rewrite (sb_kind _ _ HE). Qed.
Lemma alloc_order d s : alloc E d s = alloc E' d s.
Proof. unfold alloc. by rewrite (sb_ask _ _ HE). Qed.

Section bld.
Context (b b' : obj → st → outcome bres) (Hb : ∀ o s, b o s = b' o s).

Lemma get_with_order h o s : get_with E b h o s = get_with E' b' h o s.
Proof.
  unfold get_with. rewrite how_legal_order, (sb_dbg _ _ HE).
  destruct (promise o s) as [[d a]|]; [|done]. destruct (how_legal E' h); [|done].
  destruct (lookup_art _ _ _ _); [done| |done]. by rewrite Hb.
Qed.
Lemma resolve_with_order u ua h w s : resolve_with E b u ua h w s = resolve_with E' b' u ua h w s.
Proof.
  unfold resolve_with. rewrite (sb_dbg _ _ HE). destruct (promise w s) as [[d a]|]; [|done].
  destruct (track_dependency _ _ _ _ _); [|done..]. by rewrite get_with_order.
Qed.
Lemma exec_order u ua t p : ∀ s, exec E b u ua t p s = exec E' b' u ua t p s.
Proof.
  induction p as [r| |h w k IH|k IH|v p IH|k IH|v k IH|d k IH|w p IH] using prog_ind
    ; intros s; cbn [exec]; try done.
  - rewrite resolve_with_order. destruct (resolve_with E' b' u ua h w s); try done; apply IH.
  - rewrite (sb_dbg _ _ HE). destruct (my_state _ _ _ _); [done|apply IH].
  - rewrite (sb_dbg _ _ HE). destruct (my_state _ _ _ _); [done|apply IH].
  - rewrite (sb_ask _ _ HE). apply IH.
  - rewrite alloc_order. destruct (alloc E' d s) as [[o s']|]; [apply IH|done].
  - destruct (drop_obj w s); [apply IH|done].
Qed.
End bld.

Lemma build_order n : ∀ o s, build E n o s = build E' n o s.
Proof.
  induction n as [|n IH]; intros o s; cbn [build]; [done|].
  destruct (promise o s) as [[[aty sty init body] a]|]; [|done]. rewrite (sb_dbg _ _ HE).
  destruct (_ && _); [done|]. destruct (ensure_dyn_state _ _ _ _ _) as [c2 [k|v]]; [done|].
  by rewrite (exec_order _ _ IH).
Qed.
Lemma get_order n h o s : get E n h o s = get E' n h o s.
Proof. unfold get. apply get_with_order. apply build_order. Qed.

Lemma invalidate_order dbg pr pr' a c : sync c → invalidate_by_id dbg pr a c = invalidate_by_id dbg pr' a c.
Proof.
  intros Hs. destruct (invalidate_ok dbg pr a c Hs) as (C & c1 & -> & Hp & HC).
  destruct (invalidate_ok dbg pr' a c Hs) as (C' & c2 & -> & Hp' & HC').
  assert (C = C') as <- by (apply set_eq; intros x; by rewrite HC, HC'). f_equal. by eapply pruned_unique.
Qed.
Lemma purge_order dbg pr pr' a c : sync c → purge dbg pr a c = purge dbg pr' a c.
Proof.
  intros Hs. destruct (purge_ok dbg pr a c Hs) as (C & c1 & -> & Hp & HC).
  destruct (purge_ok dbg pr' a c Hs) as (C' & c2 & -> & Hp' & HC').
  assert (C = C') as <- by (apply set_eq; intros x; by rewrite HC, HC'). f_equal. by eapply pruned_unique.
Qed.
Lemma gc_order dbg pr pr' al ob c : CInv ob c → garbage_collection dbg pr al c = garbage_collection dbg pr' al c.
Proof.
  intros I. destruct (gc_ok dbg pr al ob c I) as [H1 H2]. destruct (gc_ok dbg pr' al ob c I) as [H3 H4].
  destruct (decide (leafs c ⊆ dom (known c))) as [Hs|Hs].
  - destruct (H1 Hs) as (C & c1 & -> & Hp & _ & HC). destruct (H3 Hs) as (C' & c2 & -> & Hp' & _ & HC').
    assert (C = C') as <- by (apply set_eq; intros x; by rewrite HC, HC'). f_equal. by eapply pruned_unique.
  - by rewrite H2, H4.
Qed.
Lemma inv_dependents_order dbg pr pr' a c c1 : sync c →
  invalidate_dependents dbg pr a c = COk c1 → (∀ y, dep_rel c a y → y = a) → 
  invalidate_dependents dbg pr' a c = COk c1.
Proof.
  intros Hs Heq Hno. destruct (inv_dependents_ok dbg pr a c Hs Hno) as (c1' & Heq1 & H1).
  destruct (inv_dependents_ok dbg pr' a c Hs Hno) as (c2 & -> & H2).
  assert (c1' = c1) as -> by congruence. f_equal.
  destruct H1 as [[Hd H1]|(Hd & H1a & H1b & H1c & H1d & H1e & H1f)];
    destruct H2 as [[Hd' H2]|(Hd' & H2a & H2b & H2c & H2d & H2e & H2f)]; [by eapply pruned_unique|done|done|].
  apply cache_eq; congruence.
Qed.
Lemma lookup_mut_order pr pr' dbg o s d a :
  Inv s → promise o s = Some (d, a) → 
  lookup_mut dbg pr a (bd_aty d) (ch s) = lookup_mut dbg pr' a (bd_aty d) (ch s) ∨
  (∃ c c', lookup_mut dbg pr a (bd_aty d) (ch s) = (CPanic PkCounterpart c, LNone) ∧
           lookup_mut dbg pr' a (bd_aty d) (ch s) = (CPanic PkCounterpart c', LNone)).
Proof.
  intros I Hp. destruct (lookup_mut_ok dbg pr o s d a I Hp) as [H1 H2].
  destruct (lookup_mut_ok dbg pr' o s d a I Hp) as [H3 H4].
  destruct (other_dependent_dec (ch s) a) as [Hex|Hno].
  - right. destruct (H1 Hex) as [c ->]. destruct (H3 Hex) as [c' ->]. eauto.
  - left. destruct (H2 Hno) as (c & Hid & _ & _ & ->). destruct (H4 Hno) as (c' & Hid' & _ & _ & ->).
    pose proof (inv_dependents_order _ _ pr' _ _ _ (ci_sync _ _ (i_c _ I)) Hid Hno) as Heq.
    assert (c' = c) as -> by congruence. done.
Qed.

(** Same outcome, or both panic in a mutable access to something depended on. *)
Definition agree {A} (x y : outcome A) : Prop :=
  x = y ∨ ∃ s1 s2, x = Panic PkCounterpart s1 ∧ y = Panic PkCounterpart s2.

Lemma step_order n x s : Inv s → stack s = [] → agree (step E n x s) (step E' n x s).
Proof.
  intros I Hst. destruct x as [d|o|h o|o f|h o|o f|o|o f|o|o|o| | | |o| ]; cbn [step]; try (by left).
  - left. by rewrite alloc_order.
  - left. by rewrite get_order.
  - unfold op_get_mut. rewrite (sb_kind _ _ HE), (sb_dbg _ _ HE). destruct (e_kind E'); [by left|].
    destruct (promise o s) as [[d a]|] eqn:Hp; [|by left].
    destruct (lookup_mut_order (prio E s) (prio E' s) (e_dbg E') o s d a I Hp) as [->|(c & c' & -> & ->)];
      [|right; eauto].
    destruct (lookup_mut (e_dbg E') (prio E' s) a (bd_aty d) (ch s)) as [[c|k c|] lr] eqn:Hlm; [|by left..].
    destruct lr as [k| |b]; [by left| |].
    + left. by rewrite build_order.
    + assert (Inv (tock (set_ch c s))) as I1.
      { destruct (lookup_mut_ok (e_dbg E') (prio E' s) o s d a I Hp) as [H1 H2].
        destruct (other_dependent_dec (ch s) a) as [Hex|Hno].
        { destruct (H1 Hex) as [c' Hc']. congruence. }
        destruct (H2 Hno) as (c' & Hid & HC & Hkn & Hlm'). assert (c' = c) as -> by congruence.
        apply Inv_tock, Inv_set_ch; [done..|]. intros a' o'. rewrite Hkn. intros Hk. right. by exists a'. }
      destruct (lookup_mut_order (prio E (tock (set_ch c s))) (prio E' (tock (set_ch c s))) (e_dbg E') o _ d a I1 Hp)
        as [->|(c1 & c2 & -> & ->)]; [by left|right; eauto].
  - left. by rewrite how_legal_order, (sb_dbg _ _ HE).
  - unfold op_lookup_mut. rewrite (sb_kind _ _ HE), (sb_dbg _ _ HE). destruct (e_kind E'); [by left|].
    destruct (promise o s) as [[d a]|] eqn:Hp; [|by left].
    destruct (lookup_mut_order (prio E s) (prio E' s) (e_dbg E') o s d a I Hp) as [->|(c & c' & -> & ->)];
      [by left|right; eauto].
  - left. destruct (promise o s) as [[d a]|]; [|done].
    rewrite (sb_dbg _ _ HE), (invalidate_order _ (prio E s 0) (prio E' s 0)); [done|apply I].
  - left. destruct (promise o s) as [[d a]|]; [|done]. by rewrite (sb_dbg _ _ HE).
  - left. destruct (promise o s) as [[d a]|]; [|done].
    rewrite (sb_dbg _ _ HE), (invalidate_order _ (prio E s 0) (prio E' s 0)); [done|apply I].
  - left. destruct (promise o s) as [[d a]|]; [|done].
    rewrite (sb_dbg _ _ HE), (purge_order _ (prio E s 0) (prio E' s 0)); [done|apply I].
  - left. rewrite (sb_dbg _ _ HE), (gc_order _ (prio E s) (prio E' s) _ (objs s)); [done|apply I].
Qed.

Lemma runs_order P s0 l s : Inv s0 → stack s0 = [] → runs E P s0 l s → runs E' P s0 l s.
Proof.
  intros I Hst Hr. induction Hr as [|l s n x r s' Hr IH HP Hs|l s n x k s' Hr IH HP Hs Hk]; [apply runs_nil|..];
    destruct (runs_Inv E P s0 l s Hr I Hst) as [I1 Hst1];
    destruct (step_order n x s I1 Hst1) as [Heq|(s1 & s2 & Heq & _)]; try congruence.
  - eapply runs_done; [done..|]. by rewrite <- Heq.
  - eapply runs_panic; [done..| |done]. by rewrite <- Heq.
  - rewrite Hs in Heq. injection Heq as -> ->. done.
Qed.
End OrderFacts.

Lemma same_but_order_sym E E' : same_but_order E E' → same_but_order E' E.
Proof. by intros [H1 H2 H3]. Qed.
