(** Concrete builders and histories, used to show that the hypotheses of the
    theorems are met by non-trivial states.  Everything here is an example. *)
From Verif Require Export HistFacts.
From stdpp Require Import relations.

(** A builder returning its dynamic state in a new bin. *)
Definition d_leaf (v : val) : bdef := BDef 0 0 (Some v) (PState (λ v, PNewBin v (λ b, PRet (Ok b)))).
(** A builder wrapping the artifact of another one; passes errors on. *)
Definition d_mid (w : obj) : bdef := BDef 1 0 (Some VUnit)
  (PResolve HRef w (λ r, match r with
    | RvVal v => PNewBin (VSome v) (λ b, PRet (Ok b))
    | RvBin b => PRet (Ok b)
    | RvErr e => PRet (Err e) end)).
(** A builder pairing the artifacts of two others. *)
Definition d_top (w1 w2 : obj) : bdef := BDef 2 0 (Some VUnit)
  (PResolve HRef w1 (λ r1, PResolve HRef w2 (λ r2, match r1, r2 with
    | RvVal v1, RvVal v2 => PNewBin (VPair v1 v2) (λ b, PRet (Ok b))
    | _, _ => PRet (Err VUnit) end))).
(** Fails, after having resolved [w]. *)
Definition d_fail (w : obj) : bdef := BDef 3 0 (Some VUnit) (PResolve HRef w (λ r, PRet (Err (VNum 9)))).
(** Panics, after having resolved [w]. *)
Definition d_panic (w : obj) : bdef := BDef 4 0 (Some VUnit) (PResolve HRef w (λ r, PPanic)).
(** [init_dyn_state] panics. *)
Definition d_noinit : bdef := BDef 5 0 None (PRet (Err VUnit)).

(** Addresses 100, 101, ...; sets are iterated in ascending order. *)
Definition env_of (k : kind) (dbg : bool) : env :=
  Env (λ n, 100 + N.of_nat n)%N (λ _ _ _ x, x) dbg k.
Definition env_s := env_of Shared true.
Definition env_b := env_of Boxed true.

Lemma run_runs E fuel l s rs s' : run E fuel l s = Some (rs, s') → ∃ h, runs E any_op s h s'.
Proof.
  assert (∀ l rs s s', run E fuel l s = Some (rs, s') →
    ∀ s0 h0, runs E any_op s0 h0 s → ∃ h, runs E any_op s0 h s') as Hgen.
  { clear. induction l as [|x l IH]; cbn [run]; intros rs s s' Hr s0 h0 H0.
    - injection Hr as <- <-. eauto.
    - destruct (step E fuel x s) as [r s1|k s1| |] eqn:Hs; try done.
      + destruct (run E fuel l s1) as [[rs1 s2]|] eqn:H1; [|done]. injection Hr as <- <-.
        eapply IH; [exact H1|]. by eapply runs_done.
      + destruct (resumable k) eqn:Hk; [|done].
        destruct (run E fuel l (unwound s1)) as [[rs1 s2]|] eqn:H1; [|done]. injection Hr as <- <-.
        eapply IH; [exact H1|]. by eapply runs_panic. }
  intros Hr. eapply Hgen; [exact Hr|constructor].
Qed.

(** The state after a history from a new cache, and its answers. *)
Definition after (E : env) (fuel : nat) (l : list op) : st :=
  match run E fuel l init_st with Some (_, s) => s | None => init_st end.
Definition answers (E : env) (fuel : nat) (l : list op) : option (list answer) :=
  match run E fuel l init_st with Some (rs, _) => Some rs | None => None end.

Lemma after_reachable E fuel l : reachable E (after E fuel l).
Proof.
  unfold after, reachable, reach_by. destruct (run E fuel l init_st) as [[rs s]|] eqn:Hr.
  - by eapply run_runs.
  - exists []. constructor.
Qed.

Lemma run_app E fuel l1 l2 s :
  run E fuel (l1 ++ l2) s =
    match run E fuel l1 s with
    | Some (rs, s1) => match run E fuel l2 s1 with Some (rs2, s2) => Some (rs ++ rs2, s2) | None => None end
    | None => None
    end.
Proof.
  revert s. induction l1 as [|x l1 IH]; intros s; cbn [run app].
  - by destruct (run E fuel l2 s) as [[]|].
  - destruct (step E fuel x s) as [r s1|k s1| |]; try done.
    + rewrite IH. destruct (run E fuel l1 s1) as [[rs s2]|]; [|done]. by destruct (run E fuel l2 s2) as [[]|].
    + destruct (resumable k); [|done]. rewrite IH. destruct (run E fuel l1 (unwound s1)) as [[rs s2]|]; [|done].
      by destruct (run E fuel l2 s2) as [[]|].
Qed.

(** The answer to [x] after the history [l]. *)
Definition answer_to (E : env) (fuel : nat) (l : list op) (x : op) : option answer :=
  match run E fuel l init_st with
  | Some (_, s) => match step E fuel x s with
                   | Done r _ => Some (Returned r)
                   | Panic k _ => Some (Panicked k)
                   | _ => None
                   end
  | None => None
  end.
Lemma after_done E fuel l x r :
  answer_to E fuel l x = Some (Returned r) → step E fuel x (after E fuel l) = Done r (after E fuel (l ++ [x])).
Proof.
  unfold answer_to, after. rewrite run_app. destruct (run E fuel l init_st) as [[rs s]|]; [|done].
  cbn [run]. destruct (step E fuel x s) as [r' s'|k s'| |]; try done. intros [= ->]. done.
Qed.
Lemma after_panics E fuel l x k :
  answer_to E fuel l x = Some (Panicked k) →
  ∃ s', step E fuel x (after E fuel l) = Panic k s' ∧ (resumable k = true → after E fuel (l ++ [x]) = unwound s').
Proof.
  unfold answer_to, after. rewrite run_app. destruct (run E fuel l init_st) as [[rs s]|]; [|done].
  cbn [run]. destruct (step E fuel x s) as [r' s'|k' s'| |]; try done. intros [= ->]. exists s'.
  split; [done|]. intros ->. done.
Qed.
Lemma runs_after E P s0 h fuel l x r :
  runs E P s0 h (after E fuel l) → P (after E fuel l) x → answer_to E fuel l x = Some (Returned r) →
  runs E P s0 ((x, Returned r) :: h) (after E fuel (l ++ [x])).
Proof. intros Hr HP Ha. eapply runs_done; [exact Hr|exact HP|by apply after_done]. Qed.

(** Histories of calls that are allowed in every state. *)
Lemma after_by E (P : st → op → Prop) fuel l : Forall (λ x, ∀ s, P s x) l → reach_by E P (after E fuel l).
Proof.
  intros HP.
  assert (∀ l rs s s', Forall (λ x, ∀ s, P s x) l → run E fuel l s = Some (rs, s') →
    ∀ s0 h0, runs E P s0 h0 s → ∃ h, runs E P s0 h s') as Hgen.
  { clear. induction l as [|x l IH]; cbn [run]; intros rs s s' HP Hr s0 h0 H0.
    - injection Hr as <- <-. eauto.
    - apply Forall_cons in HP as [Hx HP]. destruct (step E fuel x s) as [r s1|k s1| |] eqn:Hs; try done.
      + destruct (run E fuel l s1) as [[rs1 s2]|] eqn:H1; [|done]. injection Hr as <- <-.
        eapply IH; [exact HP|exact H1|]. by eapply runs_done.
      + destruct (resumable k) eqn:Hk; [|done].
        destruct (run E fuel l (unwound s1)) as [[rs1 s2]|] eqn:H1; [|done]. injection Hr as <- <-.
        eapply IH; [exact HP|exact H1|]. by eapply runs_panic. }
  unfold after. destruct (run E fuel l init_st) as [[rs s]|] eqn:Hr.
  - eapply Hgen; [done..|constructor].
  - exists []. constructor.
Qed.

(** Decision procedures for examples. *)
Definition depends_b (s : st) (u w : obj) : bool :=
  match objs s !! u, objs s !! w with
  | Some (_, ua), Some (_, wa) =>
    bool_decide (known (ch s) !! ua = Some u) && bool_decide (known (ch s) !! wa = Some w) &&
    bool_decide (ua ∈ default ∅ (dependents (ch s) !! wa))
  | _, _ => false
  end.
Lemma depends_b_spec s u w : depends_b s u w = true ↔ depends s u w.
Proof.
  unfold depends_b, depends, at_addr. split.
  - destruct (objs s !! u) as [[du ua]|]; [|done]. destruct (objs s !! w) as [[dw wa]|]; [|done].
    rewrite !andb_true_iff, !bool_decide_eq_true. intros [[H1 H2] H3].
    destruct (dependents (ch s) !! wa) as [X|] eqn:HX; cbn in H3; [|set_solver].
    exists du, ua, dw, wa, X. done.
  - intros (du & ua & dw & wa & X & -> & H1 & -> & H2 & HX & Hin).
    rewrite !andb_true_iff, !bool_decide_eq_true. rewrite HX. done.
Qed.
Definition closed_b (s : st) (C : list obj) : bool :=
  forallb (λ x, forallb (λ y, negb (depends_b s y x) || bool_decide (y ∈ C)) (map fst (map_to_list (objs s)))) C.
Lemma closed_b_affected s C w o : closed_b s C = true → w ∈ C → affected s w o → o ∈ C.
Proof.
  intros Hc Hw Ha. unfold affected in Ha. induction Ha as [|x y z Hxy Hyz IH]; [done|].
  apply IH. unfold closed_b in Hc. rewrite forallb_forall in Hc.
  specialize (Hc x). rewrite <- elem_of_list_In in Hc. specialize (Hc Hw). rewrite forallb_forall in Hc.
  specialize (Hc y). rewrite <- elem_of_list_In in Hc.
  assert (y ∈ map fst (map_to_list (objs s))) as Hy.
  { destruct Hxy as (du & ua & _ & _ & _ & Hu & _). apply elem_of_list_fmap. exists (y, (du, ua)).
    split; [done|]. by apply elem_of_map_to_list. }
  specialize (Hc Hy). apply orb_true_iff in Hc as [Hc|Hc].
  - apply negb_true_iff in Hc. apply depends_b_spec in Hxy. congruence.
  - by apply bool_decide_eq_true in Hc.
Qed.

Definition live_b (s : st) (o : obj) : bool := bool_decide (o ∈ alive s).
Lemma live_b_spec s o : live_b s o = true → live s o.
Proof. apply bool_decide_eq_true_1. Qed.

Lemma not_live_b s o : live_b s o = false → ¬ live s o.
Proof. apply bool_decide_eq_false_1. Qed.
Definition knows_b (s : st) (o : obj) : bool :=
  match objs s !! o with Some (_, a) => bool_decide (known (ch s) !! a = Some o) | None => false end.
Lemma knows_b_spec s o : knows_b s o = true ↔ knows s o.
Proof.
  unfold knows_b, knows, at_addr. split.
  - destruct (objs s !! o) as [[d a]|]; [|done]. rewrite bool_decide_eq_true. eauto.
  - intros (d & a & -> & Hk). by apply bool_decide_eq_true.
Qed.

(** A diamond: 3 = top(1, 2), 1 = mid(0), 2 = mid(0), 0 = leaf; 4 is unrelated. *)
Definition dia_ops : list op :=
  [OAlloc (d_leaf (VNum 7)); OAlloc (d_mid 0); OAlloc (d_mid 0); OAlloc (d_top 1 2); OAlloc (d_leaf (VNum 8));
   OGet HRef 3; OGet HRef 4].
Definition s_diamond := after env_s 10 dia_ops.
Definition b_diamond := after env_b 10 dia_ops.

Example diamond_answers : answers env_s 10 dia_ops = Some
  [Returned (OutObj 0); Returned (OutObj 1); Returned (OutObj 2); Returned (OutObj 3); Returned (OutObj 4);
   Returned (OutRes (RvVal (VPair (VSome (VNum 7)) (VSome (VNum 7))))); Returned (OutRes (RvVal (VNum 8)))].
Proof. vm_compute. reflexivity. Qed.
Example diamond_cached : map (cached s_diamond) [0; 1; 2; 3; 4]%N =
  [Some (Bin 0 (VNum 7)); Some (Bin 1 (VSome (VNum 7))); Some (Bin 2 (VSome (VNum 7)));
   Some (Bin 3 (VPair (VSome (VNum 7)) (VSome (VNum 7)))); Some (Bin 4 (VNum 8))].
Proof. vm_compute. reflexivity. Qed.
Lemma diamond_reachable : reachable env_s s_diamond.
Proof. apply after_reachable. Qed.
Lemma b_diamond_reachable : reachable env_b b_diamond.
Proof. apply after_reachable. Qed.
Lemma diamond_live o : (o < 5)%N → live s_diamond o.
Proof.
  intros H. assert (o = 0 ∨ o = 1 ∨ o = 2 ∨ o = 3 ∨ o = 4)%N as Ho by lia.
  apply live_b_spec. destruct Ho as [->|[->|[->|[->| ->]]]]; vm_compute; reflexivity.
Qed.
Lemma b_diamond_live o : (o < 5)%N → live b_diamond o.
Proof.
  intros H. assert (o = 0 ∨ o = 1 ∨ o = 2 ∨ o = 3 ∨ o = 4)%N as Ho by lia.
  apply live_b_spec. destruct Ho as [->|[->|[->|[->| ->]]]]; vm_compute; reflexivity.
Qed.
Lemma diamond_affected_3 : affected s_diamond 0 3.
Proof.
  eapply rtc_l; [|eapply rtc_l; [|apply rtc_refl]].
  - instantiate (1 := 1%N). apply depends_b_spec. vm_compute. reflexivity.
  - apply depends_b_spec. vm_compute. reflexivity.
Qed.
Lemma diamond_unaffected_4 : ¬ affected s_diamond 0 4.
Proof.
  intros H. apply (closed_b_affected s_diamond [0; 1; 2; 3]%N) in H; [|vm_compute; reflexivity|set_solver].
  set_solver.
Qed.
