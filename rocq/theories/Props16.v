(** Properties: doctors that panic (C49).  Vocabulary: Spec.v; the calls with such
    doctors, and the histories [watched]: Watched.v. *)
From Verif Require Import WatchFacts Facts3 Demo.
From stdpp Require Import relations.

(** ** The model: with a doctor that does not panic it is the one of System.v, and
    a call that returns did what it always does. *)
Theorem C49_model J E s n x :
  watched E s → (∀ l, J l = false) → step_d J E n x s = step E n x s.
Proof. intros (I & _)%watched_Inv HJ. apply step_d_none; [done|by apply i_wf]. Qed.
Print Assumptions C49_model.

Theorem C49_returns J E s n x r s' :
  watched E s → step_d J E n x s = Done r s' → step E n x s = Done r s'.
Proof. intros (I & _)%watched_Inv. apply step_d_done. by apply i_wf. Qed.
Print Assumptions C49_returns.

(** A call panics as it always does, or with the panic of the doctor; and only the
    calls that have something to tell. *)
Theorem C49_panics J E s n x k s' :
  watched E s → step_d J E n x s = Panic k s' →
  step E n x s = Panic k s' ∨
  k = PkUser ∧ ((∃ h o, x = OGet h o) ∨ (∃ o f, x = OGetMut o f ∨ x = ODynStateMut o f) ∨
                (∃ o, x = OInvalidate o ∨ x = OPurge o) ∨ x = OClearAll).
Proof.
  intros (I & _)%watched_Inv Hs. destruct (step_d_cases J E n x s (i_wf _ I)) as [Heq|(s1 & Heq & Hx)].
  - left. congruence.
  - right. split; [congruence|]. destruct x; try done; eauto 10.
Qed.
Print Assumptions C49_panics.

(** ** What the doctor's panic leaves behind *)

(** [invalidate], [purge] and [clear_all]: the work is done. *)
Theorem C49_late J E s n x s' :
  watched E s → ((∃ o, x = OInvalidate o ∨ x = OPurge o) ∨ x = OClearAll) →
  step_d J E n x s = Panic PkUser s' → step E n x s = Done OutUnit s'.
Proof.
  intros (I & Hst & _)%watched_Inv Hx Hs. destruct (step_d_cases J E n x s (i_wf _ I)) as [Heq|(s1 & Heq & H)].
  - exfalso. rewrite Hs in Heq. symmetry in Heq.
    assert (∀ o, promise o s = None ∨ live s o) as Hl.
    { intros o. destruct (promise o s) as [[d a]|] eqn:Hp; [|by left]. right. by eapply promise_live. }
    destruct Hx as [(o & [-> | ->])| ->]; [..|done].
    + destruct (Hl o) as [Hn|Ho]; [cbn [step] in Heq; by rewrite Hn in Heq|].
      destruct (invalidate_exact E s n o I Ho) as (s'' & Hd & _). congruence.
    + destruct (Hl o) as [Hn|Ho]; [cbn [step] in Heq; by rewrite Hn in Heq|].
      destruct (purge_effect E n o s I Ho) as (s'' & Hd & _). congruence.
  - rewrite Hs in Heq. injection Heq as <-. destruct Hx as [(o & [-> | ->])| ->]; apply H.
Qed.
Print Assumptions C49_late.

(** [dyn_state_mut]: it is an [invalidate], the state is untouched (unless it is
    [init_dyn_state] that panicked). *)
Theorem C49_dyn_state_mut J E s n o f s' :
  watched E s → step_d J E n (ODynStateMut o f) s = Panic PkUser s' →
  step E n (ODynStateMut o f) s = Panic PkUser s' ∨ step E n (OInvalidate o) s = Done OutUnit s'.
Proof.
  intros (I & _)%watched_Inv Hs. destruct (step_d_cases J E n (ODynStateMut o f) s (i_wf _ I)) as [Heq|(s1 & Heq & H)].
  - left. congruence.
  - right. rewrite Hs in Heq. injection Heq as <-. apply H.
Qed.
Print Assumptions C49_dyn_state_mut.

(** [get*]: nothing that was cached is lost; what is new was built in this call, and
    every dependency is recorded. *)
Theorem C49_get J E s n h o s' l :
  watched E s → step_d J E n (OGet h o) s = Panic PkUser s' → trace s' = l ++ trace s →
  (∀ w b, cached s w = Some b → cached s' w = Some b ∧ calls s' w = calls s w) ∧
  (∀ w b, cached s' w = Some b → cached s w = Some b ∨ EBuilt w b ∈ l) ∧
  (∀ u w, depends s' u w ↔ depends s u w ∨ EResolve u w ∈ l) ∧
  (∀ w, calls s' w = calls s w → cached s' w = cached s w) ∧
  (∀ w v, state_of s w = Some v → calls s' w = calls s w → state_of s' w = Some v).
Proof.
  intros (I & Hst & _)%watched_Inv Hs Hl.
  assert (prims_of E s s') as Hp by (exact (get_d_prims J E n h o s s' I Hst Hs)).
  exact (prims_leaves E s s' l I Hst Hp Hl).
Qed.
Print Assumptions C49_get.

(** [get_mut]: if the artifact is there, it runs no builder; otherwise it is as
    [lookup_mut] followed by a [get]. *)
Theorem C49_get_mut J E s n o f s' :
  watched E s → step_d J E n (OGetMut o f) s = Panic PkUser s' →
  ∃ s1, step E n (OLookupMut o f) s = Done (OutOpt None) s1 ∧
  ∀ l, trace s' = l ++ trace s1 →
  (∀ w b, cached s1 w = Some b → cached s' w = Some b ∧ calls s' w = calls s1 w) ∧
  (∀ w b, cached s' w = Some b → cached s1 w = Some b ∨ EBuilt w b ∈ l) ∧
  (∀ u w, depends s' u w ↔ depends s1 u w ∨ EResolve u w ∈ l) ∧
  (∀ w, calls s' w = calls s1 w → cached s' w = cached s1 w) ∧
  (∀ w v, state_of s1 w = Some v → calls s' w = calls s1 w → state_of s' w = Some v).
Proof.
  intros (I & Hst & _)%watched_Inv Hs.
  destruct (get_mut_d_prims J E n o f s s' I Hst Hs) as (s1 & Hs1 & Hp). exists s1. split; [done|]. intros l Hl.
  destruct (step_Inv E n _ s _ s1 I Hst Hs1) as [I1 Hst1].
  exact (prims_leaves E s1 s' l I1 Hst1 Hp Hl).
Qed.
Print Assumptions C49_get_mut.

(** Where it happened: either a builder was about to be given an artifact it
    resolved (the dependency is recorded), or an artifact [b] of [u] had just been
    built: the doctor was told of it, but it is not stored. *)
Theorem C49_get_where J E s n h o s' :
  watched E s → step_d J E n (OGet h o) s = Panic PkUser s' →
  step E n (OGet h o) s = Panic PkUser s' ∨
  (∃ u w t, trace s' = EResolve u w :: t ∧ J (trace s') = true ∧ depends s' u w) ∨
  (∃ u b, J (EBuilt u b :: trace s') = true ∧ calls s u < calls s' u ∧ (reent s' = false → cached s' u = None)).
Proof.
  intros (I & Hst & _)%watched_Inv Hs. exact (get_d_where J E n h o s s' I Hst Hs).
Qed.
Print Assumptions C49_get_where.

(** ** Afterwards: everything is as it was *)
Theorem C49_watched_panics E s n x k s' :
  watched E s → step E n x s = Panic k s' →
  k = PkUser ∨ (x = OGc ∧ k = PkGcIndex) ∨
  (∃ o f, (x = OGetMut o f ∨ x = OLookupMut o f) ∧ k = PkCounterpart ∧ ∃ u, u ≠ o ∧ depends s u o).
Proof. intros (I & Hst & _)%watched_Inv. exact (panic_cases E s n x k s' I Hst). Qed.
Print Assumptions C49_watched_panics.

Theorem C49_watched_invalidate E s n o :
  watched E s → live s o →
  ∃ s', step E n (OInvalidate o) s = Done OutUnit s' ∧
    (∀ w, affected s o w → cached s' w = None) ∧
    (∀ w, ¬ affected s o w → cached s' w = cached s w) ∧
    (∀ u w, depends s' u w ↔ depends s u w ∧ ¬ affected s o u ∧ ¬ affected s o w).
Proof. intros (I & _)%watched_Inv. exact (invalidate_exact E s n o I). Qed.
Print Assumptions C49_watched_invalidate.

(** Coherence: the artifacts a builder was given when it was last built are still
    the ones in the cache. *)
Theorem C49_watched_coherent E s u b l w rv :
  watched E s → reent s = false →
  cached s u = Some b → since_call s u l → EGot u w rv ∈ l →
  depends s u w ∧
  match rv with
  | RvBin bw => cached s w = Some bw
  | RvVal v => ∃ bw, cached s w = Some bw ∧ bin_val bw = v
  | RvErr e => True
  end.
Proof.
  intros (_ & _ & _ & Hcoh)%watched_Inv Hre Hb (l2 & Ht & Hc) Hin. apply elem_of_list_split in Hin as (l1 & l3 & ->).
  destruct (Hcoh Hre u w rv l1 (l3 ++ ECall u :: l2)) as [Hd Hcase].
  - left. eauto.
  - rewrite Ht. by rewrite <- (assoc_L (++)).
  - unfold since. unfold count in *. rewrite filter_app, app_length in Hc. lia.
  - split; [done|]. destruct Hcase as [[e ->]|(h & bw & Hw & ->)]; [done|]. destruct h; cbn; eauto.
Qed.
Print Assumptions C49_watched_coherent.

Lemma count_In f l e : count f l = 0 → e ∈ l → f e = true → False.
Proof.
  unfold count. intros Hc%nil_length_inv Hin Hf. assert (e ∈ filter (λ e, f e = true) l) as H by (by apply elem_of_list_filter).
  rewrite Hc in H. by apply elem_of_nil in H.
Qed.
(** What is cached is what the last build of it returned. *)
Theorem C49_watched_built E s o b :
  watched E s → cached s o = Some b →
  ∃ l1 b' l2, trace s = l1 ++ EBuilt o b' :: l2 ∧ (∀ b'', EBuilt o b'' ∉ l1) ∧ ECall o ∉ l1 ∧
    bin_ptr b' = bin_ptr b ∧ (e_kind E = Shared → b' = b).
Proof.
  intros (_ & _ & Hb & _)%watched_Inv Ho. destruct (Hb o b Ho) as (l1 & b' & l2 & Ht & H1 & H2 & H3 & H4).
  exists l1, b', l2. split_and!; try done.
  - intros b'' Hin. eapply (count_In (is_built o)); [exact H1|exact Hin|]. cbn. apply N.eqb_refl.
  - intros Hin. eapply (count_In (is_call o)); [exact H2|exact Hin|]. cbn. apply N.eqb_refl.
Qed.
Print Assumptions C49_watched_built.

Theorem C49_watched_step E s n x s' l u w :
  watched E s → goes (step E n x s) s' → trace s' = l ++ trace s →
  depends s' u w ↔ (depends s u w ∧ ¬ drops E x s u ∧ ¬ drops E x s w) ∨ EResolve u w ∈ l.
Proof. intros (I & Hst & _)%watched_Inv. exact (step_depends E n x s s' l u w I Hst). Qed.
Print Assumptions C49_watched_step.

(** ** Examples *)
Lemma run_d_watched J E fuel l : ∀ s rs s', watched E s → run_d J E fuel l s = Some (rs, s') → watched E s'.
Proof.
  induction l as [|x l IH]; intros s rs s' Hw; cbn [run_d]; [by intros [= <- <-]|].
  destruct (step_d J E fuel x s) as [r s1|k s1| |] eqn:Hs; [..|done|done].
  - destruct (run_d J E fuel l s1) as [[rs1 s2]|] eqn:Hr; [|done]. intros [= <- <-].
    eapply IH; [|exact Hr]. by eapply watched_done.
  - destruct (resumable k) eqn:Hk; [|done]. destruct (run_d J E fuel l (unwound s1)) as [[rs1 s2]|] eqn:Hr; [|done]. intros [= <- <-].
    eapply IH; [|exact Hr]. by eapply watched_panic.
Qed.
Definition after_d (J : list event → bool) (E : env) (l : list op) : st :=
  match run_d J E 10 l init_st with Some (_, s) => s | None => init_st end.
Lemma after_d_watched J E l : watched E (after_d J E l).
Proof.
  unfold after_d. destruct (run_d J E 10 l init_st) as [[rs s]|] eqn:Hr; [|constructor].
  eapply run_d_watched; [|exact Hr]. constructor.
Qed.

(** The doctor panics when told of the first artifact of 1, and when told that 2
    resolved 0 for the first time. *)
Definition jumpy (l : list event) : bool :=
  match l with
  | EBuilt u _ :: t => (u =? 1)%N && (count (is_call 1%N) t =? 1)%nat
  | EResolve u _ :: t => (u =? 2)%N && (count (is_call 2%N) t =? 1)%nat
  | EInvalidate _ :: _ => true
  | _ => false
  end.
Definition allocs : list op :=
  [OAlloc (d_leaf (VNum 7)); OAlloc (d_mid 0); OAlloc (d_mid 0); OAlloc (d_top 1 2)].

(** The diamond: [get] of 3 panics twice and then returns; 0 is built only once.
    [invalidate] of 1 panics, but its artifact and that of 3 are gone. *)
Theorem C49_applies :
  watched env_s (after_d jumpy env_s (allocs ++ [OGet HRef 3%N])) ∧
  option_map fst (run_d jumpy env_s 10 (allocs ++ [OGet HRef 3; OGet HRef 3; OGet HRef 3; OInvalidate 1]%N) init_st) =
    Some [Returned (OutObj 0); Returned (OutObj 1); Returned (OutObj 2); Returned (OutObj 3);
          Panicked PkUser; Panicked PkUser; Returned (OutRes (RvVal (VPair (VSome (VNum 7)) (VSome (VNum 7))))); Panicked PkUser]%N ∧
  (let s := after_d jumpy env_s (allocs ++ [OGet HRef 3%N]) in
   is_Some (cached s 0) ∧ cached s 1 = None ∧ cached s 3 = None ∧ depends s 1 0 ∧ depends s 3 1) ∧
  (let s := after_d jumpy env_s (allocs ++ [OGet HRef 3; OGet HRef 3]%N) in
   is_Some (cached s 1) ∧ cached s 2 = None ∧ depends s 2 0 ∧ calls s 0 = 1 ∧ calls s 1 = 2) ∧
  (let s := after_d jumpy env_s (allocs ++ [OGet HRef 3; OGet HRef 3; OGet HRef 3; OInvalidate 1]%N) in
   is_Some (cached s 2) ∧ cached s 1 = None ∧ cached s 3 = None ∧ calls s 0 = 1).
Proof.
  split; [apply after_d_watched|]. split; [vm_compute; reflexivity|].
  cbv zeta. split_and!; try (apply depends_b_spec); vm_compute; try reflexivity; eauto.
Qed.
Print Assumptions C49_applies.

(** The doctor may know of artifacts the cache does not have: it was told of that of
    1, which was not stored. *)
Theorem C49_told_not_stored :
  ∃ s s', watched env_s s ∧ step_d jumpy env_s 10 (OGet HRef 3%N) s = Panic PkUser s' ∧
    jumpy (EBuilt 1%N (Bin 1 (VSome (VNum 7))) :: trace s') = true ∧ cached s' 1%N = None ∧ reent s' = false.
Proof.
  pose (s := after_d jumpy env_s allocs).
  pose (s' := match step_d jumpy env_s 10 (OGet HRef 3%N) s with Panic _ s' => s' | _ => s end).
  exists s, s'. split; [apply after_d_watched|]. split_and!; vm_compute; reflexivity.
Qed.
Print Assumptions C49_told_not_stored.
