(** What happens to the observables while builders run. *)
From Verif Require Export OpFacts.
From stdpp Require Import relations.

Section BuildFacts.
Context (E : env).
Notation prim := (prim E).
Notation prims := (rtc prim).

Lemma make_known_mono a o c a' o' : known c !! a' = Some o' → known (make_known a o c) !! a' = Some o'.
Proof.
  intros H. unfold make_known. destruct (known c !! a) eqn:Ha; [done|]. cbn.
  rewrite lookup_insert_ne; [done|]. intros <-. congruence.
Qed.

Lemma prim_known s s' a o : prim s s' → known (ch s) !! a = Some o → known (ch s') !! a = Some o.
Proof.
  intros Hp Hk. destruct Hp; cbn; try done.
  - by apply make_known_mono.
  - apply alloc_Some in H as (-> & -> & _). done.
  - apply drop_Some in H as (_ & _ & ->). done.
Qed.
Lemma prim_knows s s' o : Inv s → prim s s' → knows s o → knows s' o.
Proof.
  intros I Hp (d & a & Ho & Hk). exists d, a. split.
  - eapply prim_objs; [exact Hp|exact (i_wf _ I)|exact Ho].
  - by eapply prim_known.
Qed.
Lemma prim_at s s' o d a : Inv s → prim s s' → at_addr s o d a → at_addr s' o d a.
Proof. intros I Hp Ho. eapply prim_objs; [exact Hp|exact (i_wf _ I)|exact Ho]. Qed.

(** Induction over [prims] with the invariant. *)
Lemma prims_ind_inv (P : st → Prop) s s' :
  Inv s → P s → (∀ s1 s2, Inv s1 → Inv s2 → prims s s1 → P s1 → prim s1 s2 → P s2) → prims s s' → P s'.
Proof.
  intros I H0 Hs H. assert (Inv s' ∧ P s') as [_ ?]; [|done].
  refine (rtc_ind_r (λ x, Inv x ∧ P x) s _ _ s' H); [done|].
  intros s1 s2 H1 H2 [I1 HP]. assert (Inv s2) as I2 by (by eapply prim_Inv). split; [done|]. exact (Hs s1 s2 I1 I2 H1 HP H2).
Qed.
Lemma prims_knows s s' o : Inv s → prims s s' → knows s o → knows s' o.
Proof. intros I Hp Hk. refine (prims_ind_inv (λ x, knows x o) s s' I Hk _ Hp). intros s1 s2 I1 _ _ H1 H2. exact (prim_knows s1 s2 o I1 H2 H1). Qed.
Lemma prims_at s s' o d a : Inv s → prims s s' → at_addr s o d a → at_addr s' o d a.
Proof. intros I Hp Hk. refine (prims_ind_inv (λ x, at_addr x o d a) s s' I Hk _ Hp). intros s1 s2 I1 _ _ H1 H2. exact (prim_at s1 s2 o d a I1 H2 H1). Qed.

(** A known builder's address is not that of another live one. *)
Lemma stack_addr s u S d a o d' :
  Inv s → stack s = u :: S → at_addr s u d a → at_addr s o d' a → known (ch s) !! a = Some o → o = u.
Proof.
  intros I Hs Hu Ho Hk. destruct (i_stack _ I u) as (Hal & d1 & a1 & Hu1 & Hk1 & _); [rewrite Hs; left|].
  unfold at_addr in *. congruence.
Qed.

Lemma prim_cached s s' o b :
  Inv s → prim s s' → o ∉ stack s → cached s o = Some b →
  cached s' o = Some b ∧ o ∉ stack s' ∧ calls s' o = calls s o.
Proof.
  intros I Hp Hns Hc.
  assert (knows s o) as Hk by (destruct (decide (knows s o)); [done|by rewrite cached_unknown in Hc]).
  assert (knows s' o) as Hk' by (by eapply prim_knows).
  destruct Hk as (d & a & Ho & Hk).
  assert (at_addr s' o d a) as Ho' by (by eapply prim_at).
  assert (known (ch s') !! a = Some o) as Hk1 by (by eapply prim_known).
  rewrite (cached_at s o d a Ho Hk) in Hc. rewrite (cached_at s' o d a Ho' Hk1).
  destruct Hp; cbn in *; try done.
  - by rewrite (proj1 (make_known_fields _ _ _)).
  - split_and!; [done| |].
    + intros [->|?]%elem_of_cons; [|done]. apply promise_Some in H as [_ H]. unfold at_addr in *.
      assert (a0 = a) as -> by congruence. by rewrite H2 in Hc.
    + rewrite calls_ECall. destruct (decide (o0 = o)) as [->|]; [|done].
      apply promise_Some in H as [_ H]. unfold at_addr in *. assert (a0 = a) as -> by congruence. by rewrite H2 in Hc.
  - apply alloc_Some in H as (-> & -> & _). done.
  - apply drop_Some in H as (_ & _ & ->). done.
  - rewrite H in Hns. apply not_elem_of_cons in Hns as [Hne Hns]. split_and!; try done.
    rewrite lookup_insert_ne; [done|]. intros <-. apply Hne.
    eapply stack_addr; [done|exact H|exact H0|exact Ho|exact Hk].
  - rewrite H in Hns. apply not_elem_of_cons in Hns as [Hne Hns]. done.
Qed.
Lemma prims_cached s s' o b :
  Inv s → prims s s' → o ∉ stack s → cached s o = Some b →
  cached s' o = Some b ∧ o ∉ stack s' ∧ calls s' o = calls s o.
Proof.
  intros I Hp Hns Hc.
  refine (prims_ind_inv (λ x, cached x o = Some b ∧ o ∉ stack x ∧ calls x o = calls s o) s s' I _ _ Hp); [done|].
  intros s1 s2 I1 I2 _ (H1 & H2 & H3) H. destruct (prim_cached s1 s2 o b I1 H H2 H1) as (? & ? & ?).
  split_and!; [done..|congruence].
Qed.

(** Events are only added. *)
Lemma prim_trace s s' : prim s s' → ∃ l, trace s' = l ++ trace s.
Proof.
  intros H. destruct H; cbn; try (by exists []); try (by eexists [_]).
  - apply alloc_Some in H as (-> & -> & _). by exists [].
  - apply drop_Some in H as (_ & _ & ->). by exists [].
Qed.
Lemma prims_trace s s' : prims s s' → ∃ l, trace s' = l ++ trace s.
Proof.
  induction 1 as [|x y z H _ [l IH]]; [by exists []|]. destruct (prim_trace _ _ H) as [l' H'].
  exists (l ++ l'). rewrite IH, H'. by rewrite app_assoc.
Qed.

(** Number of calls only grows. *)
Lemma count_app f l l' : count f (l ++ l') = count f l + count f l'.
Proof. unfold count. by rewrite filter_app, app_length. Qed.

Lemma prims_calls s s' o : prims s s' → calls s o ≤ calls s' o.
Proof. intros H. destruct (prims_trace _ _ H) as [l Hl]. unfold calls. rewrite Hl, count_app. lia. Qed.

(** Dynamic states: only the builder on top of the stack can change its own. *)
Lemma prim_state s s' o v :
  Inv s → prim s s' → state_of s o = Some v → o ∉ stack s → state_of s' o = Some v ∧ (o ∉ stack s' ∨ calls s o < calls s' o).
Proof.
  intros I Hp Hc Hns.
  assert (knows s o) as Hk by (destruct (decide (knows s o)); [done|by rewrite state_unknown in Hc]).
  assert (knows s' o) as Hk' by (by eapply prim_knows).
  destruct Hk as (d & a & Ho & Hk).
  assert (at_addr s' o d a) as Ho' by (by eapply prim_at).
  assert (known (ch s') !! a = Some o) as Hk1 by (by eapply prim_known).
  rewrite (state_at s o d a Ho Hk) in Hc. rewrite (state_at s' o d a Ho' Hk1).
  destruct Hp; cbn in *; auto.
  - destruct (make_known_fields a0 o0 (ch s)) as (_ & -> & _). auto.
  - rewrite lookup_insert_ne; [auto|]. intros <-. by rewrite H1 in Hc.
  - split; [done|]. destruct (decide (o0 = o)) as [->|Hne].
    + right. rewrite calls_ECall, decide_True by done. apply Nat.lt_succ_diag_r.
    + left. by apply not_elem_of_cons.
  - rewrite lookup_insert_ne; [auto|]. intros <-. apply Hns. rewrite H.
    rewrite (stack_addr s u S du ua o d I H H0 Ho Hk). left.
  - apply alloc_Some in H as (-> & -> & _). auto.
  - apply drop_Some in H as (_ & _ & ->). auto.
  - split; [done|left]. rewrite H in Hns. by apply not_elem_of_cons in Hns as [_ ?].
  - split; [done|left]. rewrite H in Hns. by apply not_elem_of_cons in Hns as [_ ?].
Qed.
Lemma prims_state s s' o v :
  Inv s → prims s s' → o ∉ stack s → state_of s o = Some v →
  calls s o < calls s' o ∨ (state_of s' o = Some v ∧ o ∉ stack s').
Proof.
  intros I Hp Hns Hc.
  refine (prims_ind_inv (λ x, calls s o < calls x o ∨ (state_of x o = Some v ∧ o ∉ stack x)) s s' I _ _ Hp); [auto|].
  intros s1 s2 I1 I2 Hs [Hlt|[H1 H2]] H.
  - left. assert (prims s1 s2) as H' by (by apply rtc_once). apply (prims_calls _ _ o) in H'. lia.
  - destruct (prim_state s1 s2 o v I1 H H1 H2) as [? [?|?]]; [auto|].
    left. apply (prims_calls _ _ o) in Hs. lia.
Qed.

(** Shape of a build that returns. *)
Lemma build_shape fuel o s d a r s' :
  Inv s → promise o s = Some (d, a) → artifacts (ch s) !! a = None → build E fuel o s = Done r s' →
  ∃ s2, prims s s2 ∧ stack s2 = o :: stack s ∧ calls s o < calls s2 o ∧
    ((∃ b, r = BOk (Art (bd_aty d) b) ∧
        s' = set_stack (stack s) (log (EBuilt o b) (set_ch (set_artifacts <[a:=Art (bd_aty d) b]> (ch s2)) s2))) ∨
     (∃ e, r = BErr e ∧ s' = set_stack (stack s) (log (EFailed o e) s2))).
Proof.
  intros I Hp Hna. destruct fuel as [|fuel]; cbn [build]; [done|].
  rewrite Hp. destruct d as [aty sty init body].
  destruct (e_dbg E && _); [done|].
  destruct (ensure_dyn_state a o sty init (make_known a o (ch s))) as [c2 x] eqn:He.
  destruct (ensure_prims E o s (BDef aty sty init body) a c2 x Hp He) as (P1 & Pa & Pk & Pd).
  destruct x as [k|v]; [done|].
  apply promise_Some in Hp as Hp'. destruct Hp' as [Hal Ho].
  set (s1 := log _ _).
  assert (prims s s1) as P01.
  { eapply rtc_r; [exact P1|]. eapply (pm_push E (set_ch c2 s)); eauto.
    - cbn. congruence. }
  assert (calls s o < calls s1 o) as Hlt.
  { unfold s1. rewrite calls_ECall, decide_True by done. apply Nat.lt_succ_diag_r. }
  destruct (exec_prims E (build E fuel) o (BDef aty sty init body) a (stack s) (build_bld_ok E fuel) body s1) as [X1 X2];
    [exact (prims_objs_wf E _ _ P01 (i_wf _ I))|done..|].
  cbn [bd_sty] in X1, X2.
  destruct (exec E (build E fuel) o a sty body s1) as [[b|e] s2|k s2| |] eqn:Hx; try done.
  - assert (prims s1 s2) as P12 by (apply X1; left; eauto).
    cbn [artifacts set_artifacts]. rewrite lookup_insert. intros [= <- <-].
    exists s2. split_and!; [by etrans|by apply (X2 (Ok b))| |].
    + apply (prims_calls _ _ o) in P12. lia.
    + left. by exists b.
  - assert (prims s1 s2) as P12 by (apply X1; left; eauto). intros [= <- <-].
    exists s2. split_and!; [by etrans|by apply (X2 (Err e))| |].
    + apply (prims_calls _ _ o) in P12. lia.
    + right. by exists e.
Qed.

(** A builder stays alive while it is built. *)
Lemma build_alive fuel o s d a r s' :
  Inv s → promise o s = Some (d, a) → artifacts (ch s) !! a = None → build E fuel o s = Done r s' →
  promise o s' = Some (d, a) ∧ known (ch s') !! a = Some o.
Proof.
  intros I Hp Hna Hb. apply promise_Some in Hp as Hp'. destruct Hp' as [Hal Ho].
  destruct (build_shape fuel o s d a r s' I Hp Hna Hb) as (s2 & P & Hst & _ & Hc).
  assert (Inv s2) as I2 by (by eapply prims_Inv).
  assert (at_addr s2 o d a) as Ho2 by (eapply prims_at; [exact I|exact P|exact Ho]).
  destruct (i_stack _ I2 o) as (Hal2 & d' & a' & Ho' & Hk & _); [rewrite Hst; left|].
  unfold at_addr in Ho2. assert (a' = a) as -> by congruence.
  rewrite promise_Some. destruct Hc as [(b & _ & ->)|(e & _ & ->)]; done.
Qed.
End BuildFacts.
