(** Properties: crash points.  [Drop] code of artifacts and dynamic states may
    panic in the middle of a call (C43).  Vocabulary: Spec.v, RoughSpec.v; the
    calls with such interruptions: Interrupt.v.  What holds after any such
    history is in Props10.v (C41, C42). *)
From Verif Require Import BombFacts Facts3 Demo.
From stdpp Require Import relations.

(** ** The model: without panicking [Drop] code it is the one of System.v, and
    a call that returns did what it always does. *)
Theorem C43_model E da dd n x s :
  (∀ a, da a = false) → (∀ a, dd a = false) → step_i da dd E n x s = step E n x s.
Proof. intros H1 H2. by apply step_i_none. Qed.
Print Assumptions C43_model.

Theorem C43_returns E l da dd n x s r s' :
  caught E l s → step_i da dd E n x s = Done r s' → step E n x s = Done r s'.
Proof. intros [H _]%caught_W. by apply step_i_done. Qed.
Print Assumptions C43_returns.

(** ** What an interrupted call leaves behind *)

(** [invalidate], [dyn_state_mut], [lookup_mut] and [get_mut] of [o]: only
    artifacts of [o] and of its transitive dependents may be gone.  (The first
    case: the panic is not one of [Drop], but of the builder that [get_mut]
    runs.) *)
Theorem C43_interrupted E s da dd n x o s' :
  reachable E s →
  (x = OInvalidate o ∨ (∃ f, x = ODynStateMut o f) ∨ (∃ f, x = OLookupMut o f) ∨ (∃ f, x = OGetMut o f)) →
  step_i da dd E n x s = Panic PkUser s' →
  step E n x s = Panic PkUser s' ∨ partly s (affected s o) (λ _, False) s'.
Proof. intros [I _]%reach_Inv. by apply cut_call. Qed.
Print Assumptions C43_interrupted.

(** [purge] of [o]: wherever it is interrupted, [o] itself is forgotten. *)
Theorem C43_interrupted_purge E s da dd n o s' :
  reachable E s → step_i da dd E n (OPurge o) s = Panic PkUser s' → partly s (affected s o) (eq o) s'.
Proof. intros [I _]%reach_Inv. by apply cut_purge. Qed.
Print Assumptions C43_interrupted_purge.

(** Garbage collection: nothing of a live builder, or of one with dependents,
    is touched. *)
Theorem C43_interrupted_gc E s da dd n s' :
  reachable E s → step_i da dd E n OGc s = Panic PkUser s' →
  ∃ F : obj → Prop, (∀ w, F w → knows s w ∧ ¬ live s w ∧ ∀ u, ¬ depends s u w) ∧ (∃ w, F w) ∧ collects_partly s F s'.
Proof. intros [I _]%reach_Inv. by apply gc_broken_effect. Qed.
Print Assumptions C43_interrupted_gc.

(** ** Calling again *)

(** [purge] again completes it, unless the panic came from a dependent. *)
Theorem C43_retry_purge E s da dd n m o s' :
  reachable E s → (∀ w, w ≠ o → affected s o w → ¬ explosive da s w) →
  step_i da dd E n (OPurge o) s = Panic PkUser s' →
  ∃ s'', step E m (OPurge o) (unwound s') = Done OutUnit s'' ∧ forgets s (affected s o) (eq o) s''.
Proof. intros [I _]%reach_Inv. by apply purge_retry. Qed.
Print Assumptions C43_retry_purge.

(** [clear_artifacts] and [clear_all] again: as if there had been no interruption. *)
Theorem C43_retry_clear E s n x c :
  clear_cut x (ch s) c → step E n x (set_ch c s) = step E n x s.
Proof. apply clear_retry. Qed.
Print Assumptions C43_retry_clear.

(** Garbage collection again: what could be collected is gone. *)
Theorem C43_retry_gc E s da dd n m s' :
  reachable E s → step_i da dd E n OGc s = Panic PkUser s' →
  ∃ s'', step E m OGc (unwound s') = Done OutUnit s'' ∧
    ∀ w, knows s w ∧ ¬ live s w ∧ (∀ u, ¬ depends s u w) →
      ¬ knows s'' w ∧ cached s'' w = None ∧ state_of s'' w = None.
Proof. intros [I Hst]%reach_Inv. by apply gc_retry. Qed.
Print Assumptions C43_retry_gc.

(** [invalidate] again does not help: if the artifact of [o] itself panics while
    being dropped, all dependents keep their (now stale) artifacts, but are no
    longer recorded as such, so a second [invalidate] leaves them alone. *)
Theorem C43_stale E s da dd n o :
  reachable E s → live s o → explosive da s o →
  ∃ s', step_i da dd E n (OInvalidate o) s = Panic PkUser s' ∧
    cached s' o = None ∧ (∀ w, w ≠ o → cached s' w = cached s w) ∧ (∀ u, ¬ depends s' u o) ∧
    ∀ m, ∃ s'', step E m (OInvalidate o) (unwound s') = Done OutUnit s'' ∧ ∀ w, cached s'' w = cached s' w.
Proof. intros [I _]%reach_Inv. by apply explosive_invalidate. Qed.
Print Assumptions C43_stale.

(** ** Interrupted garbage collections do no harm at all *)

Theorem C43_sturdy_panics E s n x k s' :
  sturdy E s → step E n x s = Panic k s' →
  k = PkUser ∨ (x = OGc ∧ k = PkGcIndex) ∨
  (∃ o f, (x = OGetMut o f ∨ x = OLookupMut o f) ∧ k = PkCounterpart ∧ ∃ u, u ≠ o ∧ depends s u o).
Proof. intros (I & Hst & _)%sturdy_Inv. exact (panic_cases E s n x k s' I Hst). Qed.
Print Assumptions C43_sturdy_panics.

Theorem C43_sturdy_invalidate E s n o :
  sturdy E s → live s o →
  ∃ s', step E n (OInvalidate o) s = Done OutUnit s' ∧
    (∀ w, affected s o w → cached s' w = None) ∧
    (∀ w, ¬ affected s o w → cached s' w = cached s w) ∧
    (∀ u w, depends s' u w ↔ depends s u w ∧ ¬ affected s o u ∧ ¬ affected s o w).
Proof. intros (I & _)%sturdy_Inv. exact (invalidate_exact E s n o I). Qed.
Print Assumptions C43_sturdy_invalidate.

Theorem C43_sturdy_coherent E s u b l w rv :
  sturdy E s → reent s = false →
  cached s u = Some b → since_call s u l → EGot u w rv ∈ l →
  depends s u w ∧
  match rv with
  | RvBin bw => cached s w = Some bw
  | RvVal v => ∃ bw, cached s w = Some bw ∧ bin_val bw = v
  | RvErr e => True
  end.
Proof.
  intros (_ & _ & _ & Hcoh)%sturdy_Inv Hre Hb (l2 & Ht & Hc) Hin. apply elem_of_list_split in Hin as (l1 & l3 & ->).
  destruct (Hcoh Hre u w rv l1 (l3 ++ ECall u :: l2)) as [Hd Hcase].
  - left. eauto.
  - rewrite Ht. by rewrite <- (assoc_L (++)).
  - unfold since. unfold count in *. rewrite filter_app, app_length in Hc. lia.
  - split; [done|]. destruct Hcase as [[e ->]|(h & bw & Hw & ->)]; [done|]. destruct h; cbn; eauto.
Qed.
Print Assumptions C43_sturdy_coherent.

Theorem C43_sturdy_step E s n x s' l u w :
  sturdy E s → goes (step E n x s) s' → trace s' = l ++ trace s →
  depends s' u w ↔ (depends s u w ∧ ¬ drops E x s u ∧ ¬ drops E x s w) ∨ EResolve u w ∈ l.
Proof. intros (I & Hst & _)%sturdy_Inv. exact (step_depends E n x s s' l u w I Hst). Qed.
Print Assumptions C43_sturdy_step.

(** ** Examples and the two refutations *)

(** Running with interruptions, going on after each panic. *)
Fixpoint go_i (E : env) (fuel : nat) (l : list (op * (addr → bool) * (addr → bool))) (s : st) : st :=
  match l with
  | [] => s
  | (x, da, dd) :: l' =>
    match step_i da dd E fuel x s with
    | Done _ s' => go_i E fuel l' s'
    | Panic _ s' => go_i E fuel l' (unwound s')
    | _ => s
    end
  end.
Lemma go_i_wild E fuel l : ∀ s, wild E s → wild E (go_i E fuel l s).
Proof.
  induction l as [|[[x da] dd] l IH]; intros s Hs; [done|]. cbn [go_i].
  destruct (step_i da dd E fuel x s) eqn:He; [|..|done|done]; apply IH; [by eapply wild_done|by eapply wild_panic].
Qed.
Definition quiet (x : op) : op * (addr → bool) * (addr → bool) := (x, no_bomb, no_bomb).
Definition loud (x : op) : op * (addr → bool) * (addr → bool) := (x, λ _, true, no_bomb).

(** After an interrupted [purge], a brand-new builder is given the dynamic state
    of a purged and dropped one (which in a reachable state never happens: C09);
    if its state has another type, [dyn_state] panics by a failed downcast. *)
Definition leak_ops (d : bdef) := [quiet (OAlloc (d_leaf (VNum 1))); quiet (OGet HRef 0); loud (OPurge 0); quiet (ODrop 0); quiet (OAlloc d)]%N.
Definition env_again : env := Env (λ n, 100)%N (λ _ _ _ x, x) true Shared.
Theorem C43_leaked_state :
  ∃ E s0 d s1 n, wild E s0 ∧ step E n (OAlloc d) s0 = Done (OutObj 1%N) s1 ∧ initial s1 1%N = Some (VNum 2) ∧
    step E n (ODynState 1%N) s1 = Done (OutVal (VNum 1)) (go_i E n [quiet (ODynState 1%N)] s1).
Proof.
  exists env_again, (go_i env_again 10 (take 4 (leak_ops (d_leaf (VNum 2)))) init_st), (d_leaf (VNum 2)),
    (go_i env_again 10 (leak_ops (d_leaf (VNum 2))) init_st), 10.
  split_and!; [apply go_i_wild; constructor|vm_compute; reflexivity..].
Qed.
Print Assumptions C43_leaked_state.
Theorem C43_leaked_downcast :
  ∃ E s n x s', wild E s ∧ step E n x s = Panic PkDowncast s'.
Proof.
  set (d := BDef 9 9 (Some VUnit) (PNewBin (VNum 2) (λ b, PRet (Ok b)))).
  exists env_again, (go_i env_again 10 (leak_ops d) init_st), 10, (ODynState 1%N), (go_i env_again 10 (leak_ops d ++ [quiet (ODynState 1%N)]) init_st).
  split_and!; [apply go_i_wild; constructor|vm_compute; reflexivity].
Qed.
Print Assumptions C43_leaked_downcast.

(** The diamond (3 depends on 1 and 2, which depend on 0): [invalidate] of 0
    interrupted at the artifact of 2.  That of 0 and of 2 are gone; 1 and 3,
    though stale, still have theirs. *)
Definition bomb_at (s : st) (o : obj) (a : addr) : bool :=
  match objs s !! o with Some (_, a') => (a =? a')%N | None => false end.
Notation s_dia := s_diamond.
Definition is_user_panic (x : outcome out) : bool := match x with Panic PkUser _ => true | _ => false end.
Lemma is_user_panic_spec x : is_user_panic x = true → ∃ s', x = Panic PkUser s'.
Proof. destruct x as [?|[] ?| |]; try done. eauto. Qed.
Example C43_interrupted_applies :
  reachable env_s s_dia ∧
  (∃ s', step_i (bomb_at s_dia 2) no_bomb env_s 10 (OInvalidate 0%N) s_dia = Panic PkUser s') ∧
  (let s' := go_i env_s 10 [(OInvalidate 0%N, bomb_at s_dia 2, no_bomb)] s_dia in
   cached s' 0 = None ∧ cached s' 2 = None ∧ is_Some (cached s' 1) ∧ is_Some (cached s' 3)).
Proof.
  cbn zeta. split_and!; [apply after_reachable|apply is_user_panic_spec; vm_compute; reflexivity|vm_compute; eauto..].
Qed.
Example C43_stale_applies : reachable env_s s_dia ∧ live s_dia 0 ∧ explosive (bomb_at s_dia 0) s_dia 0 ∧
  depends s_dia 1 0 ∧ is_Some (cached s_dia 1).
Proof.
  split_and!; [apply after_reachable|apply live_b_spec; vm_compute; reflexivity| |apply depends_b_spec; vm_compute; reflexivity|vm_compute; eauto].
  split; [vm_compute; eauto|]. unfold at_addr. eexists _, _. split; vm_compute; reflexivity.
Qed.
(** [purge] of 0 interrupted at its own artifact, and at its state. *)
Example C43_purge_applies :
  reachable env_s s_dia ∧ (∀ w, w ≠ 0%N → affected s_dia 0 w → ¬ explosive (bomb_at s_dia 0) s_dia w) ∧
  (∃ s', step_i (bomb_at s_dia 0) no_bomb env_s 10 (OPurge 0%N) s_dia = Panic PkUser s') ∧
  (∃ s', step_i no_bomb (bomb_at s_dia 0) env_s 10 (OPurge 0%N) s_dia = Panic PkUser s').
Proof.
  split_and!; [apply after_reachable| |apply is_user_panic_spec; vm_compute; reflexivity..].
  intros w Hne _ [_ (d & a & Hw & Ha)].
  assert (Inv s_dia) as I by (eapply (reach_Inv env_s any_op), after_reachable).
  assert (∃ d0, objs s_dia !! 0%N = Some (d0, a)) as [d0 H0].
  { revert Ha. unfold bomb_at. destruct (objs s_dia !! 0%N) as [[d0 a0]|]; [|done]. intros ->%N.eqb_eq. eauto. }
  apply Hne. refine (i_addr _ I w 0%N d d0 a _ _ Hw H0).
  - left. apply diamond_live. apply (i_num _ I w (d, a)) in Hw.
    assert (nobj s_dia = 5%N) as Hn by (vm_compute; reflexivity). by rewrite Hn in Hw.
  - left. by apply diamond_live.
Qed.
(** 3 dropped, garbage collection interrupted at its artifact, and at its state. *)
Definition s_dia_dropped : st := after env_s 10 (dia_ops ++ [ODrop 3%N]).
Example C43_gc_applies :
  reachable env_s s_dia_dropped ∧
  (∃ s', step_i (bomb_at s_dia 3) no_bomb env_s 10 OGc s_dia_dropped = Panic PkUser s') ∧
  (∃ s', step_i no_bomb (bomb_at s_dia 3) env_s 10 OGc s_dia_dropped = Panic PkUser s').
Proof. split_and!; [apply after_reachable|apply is_user_panic_spec; vm_compute; reflexivity..]. Qed.
Lemma run_sturdy E fuel l : ∀ s rs s', sturdy E s → run E fuel l s = Some (rs, s') → sturdy E s'.
Proof.
  induction l as [|x l IH]; cbn [run]; intros s rs s' Hs; [by intros [= <- <-]|].
  destruct (step E fuel x s) as [r s1|k s1| |] eqn:He; try done.
  - destruct (run E fuel l s1) as [[rs1 s2]|] eqn:H1; [|done]. intros [= <- <-].
    eapply IH; [|exact H1]. by eapply sturdy_done.
  - destruct (resumable k) eqn:Hk; [|done].
    destruct (run E fuel l (unwound s1)) as [[rs1 s2]|] eqn:H1; [|done]. intros [= <- <-].
    eapply IH; [|exact H1]. by eapply sturdy_panic.
Qed.
Lemma after_sturdy E fuel l : sturdy E (after E fuel l).
Proof.
  unfold after. destruct (run E fuel l init_st) as [[rs s]|] eqn:Hr; [|constructor].
  eapply run_sturdy; [constructor|exact Hr].
Qed.
Example C43_sturdy_applies : let s := go_i env_s 10 [(OGc, bomb_at s_dia 3, no_bomb)] s_dia_dropped in
  sturdy env_s s ∧ reent s = false ∧ cached s 3 = None ∧ is_Some (cached s 1) ∧ live s 0 ∧ affected s 0 1.
Proof.
  cbn zeta. split_and!.
  - cbn [go_i]. destruct (step_i (bomb_at s_dia 3) no_bomb env_s 10 OGc s_dia_dropped) as [r s'|k s'| |] eqn:He.
    + assert (is_user_panic (step_i (bomb_at s_dia 3) no_bomb env_s 10 OGc s_dia_dropped) = true) as H by (vm_compute; reflexivity).
      rewrite He in H. discriminate H.
    + assert (is_user_panic (step_i (bomb_at s_dia 3) no_bomb env_s 10 OGc s_dia_dropped) = true) as H by (vm_compute; reflexivity).
      rewrite He in H. destruct k; try discriminate H. eapply sturdy_gc; [|exact He]. apply after_sturdy.
    + apply after_sturdy.
    + apply after_sturdy.
  - vm_compute. reflexivity.
  - vm_compute. reflexivity.
  - vm_compute. eauto.
  - apply live_b_spec. vm_compute. reflexivity.
  - apply rtc_once, depends_b_spec. vm_compute. reflexivity.
Qed.
(** C42 also covers the state of [C43_leaked_downcast]: after [clear_all] all is
    well again. *)
Example C42_wild_applies : let s := go_i env_again 10 (leak_ops (d_leaf (VNum 2)) ++ [quiet OClearAll]) init_st in
  recovered env_again s ∧ live s 1 ∧
  step env_again 10 (ODynState 1%N) s = Done (OutVal (VNum 2)) (go_i env_again 10 [quiet (ODynState 1%N)] s).
Proof.
  cbn zeta. split_and!; [|apply live_b_spec; vm_compute; reflexivity|vm_compute; reflexivity].
  set (s0 := go_i env_again 10 (leak_ops (d_leaf (VNum 2))) init_st).
  exists s0, 10, OClearAll, OutUnit, (go_i env_again 10 (leak_ops (d_leaf (VNum 2)) ++ [quiet OClearAll]) init_st), [].
  split; [right; split; [done|]; apply go_i_wild; constructor|]. split; [vm_compute; reflexivity|constructor].
Qed.
