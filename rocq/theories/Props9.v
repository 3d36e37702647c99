(** More properties: C03, C09, C14, C19, C24, C25, C27 for whole histories. *)
From Verif Require Import Demo Props1 Props2 LeafFacts AfterFacts CycleFacts.
From stdpp Require Import relations.

(** ** C19: which builders are known, for every history *)

(** One call: known are those known before and not unlearnt (by [purge] of it,
    [clear_all], or garbage collection if nobody holds it and nothing depends
    on it), and those the call introduces (the target of a [get*] or a state
    access, and what was resolved meanwhile). *)
Theorem C19_step E s n x s' l w :
  reachable E s → goes (step E n x s) s' → trace s' = l ++ trace s →
  knows s' w ↔ (knows s w ∧ ¬ unlearns E x s w) ∨ introduces x l w.
Proof. intros [I Hst]%reach_Inv. exact (step_knows E n x s s' l w I Hst). Qed.
Print Assumptions C19_step.

(** Every history: a builder is known if and only if some call introduced it,
    and none after that unlearnt it. *)
Theorem C19_history E s w :
  reachable E s →
  knows s w ↔ ∃ s0 n x s1 l0 l, reachable E s0 ∧ goes (step E n x s0) s1 ∧ trace s1 = l0 ++ trace s0 ∧
    introduces x l0 w ∧ runs E (λ t y, ¬ unlearns E y t w) (unwound s1) l s.
Proof. exact (knows_history E s w). Qed.
Print Assumptions C19_history.

Example C19_history_applies : reachable env_s s_diamond ∧ knows s_diamond 1.
Proof. split; [apply diamond_reachable|]. apply knows_b_spec. vm_compute. reflexivity. Qed.

(** ** C24: a cleared cache is as good as new, for ever *)

(** Whatever the user does with the cache after [clear_all] he could have done
    with a new cache, with the same answers to every call, and the other way
    round.  The states then agree but for the log. *)
Theorem C24_history E s n s1 :
  step E n OClearAll s = Done OutUnit s1 →
  (∀ l s', runs E any_op s1 l s' → ∃ t, runs E any_op (with_new_cache s) l t ∧ same_but_log s' t) ∧
  (∀ l t, runs E any_op (with_new_cache s) l t → ∃ s', runs E any_op s1 l s' ∧ same_but_log s' t).
Proof.
  intros Hs. cbn [step] in Hs. injection Hs as <-. rewrite clear_all_empty.
  split; intros l t Hr.
  - destruct (runs_same_log E (log EClear (set_ch empty_cache s)) (with_new_cache s) l t) as (t' & Ht & Hsl); [|exact Hr|eauto]. by constructor.
  - destruct (runs_same_log E (with_new_cache s) (log EClear (set_ch empty_cache s)) l t) as (t' & Ht & Hsl); [|exact Hr|]; [by constructor|].
    exists t'. split; [done|]. destruct Hsl. by constructor.
Qed.
Print Assumptions C24_history.

Example C24_history_applies : ∃ s1 l s', step env_s 10 OClearAll s_diamond = Done OutUnit s1 ∧
  runs env_s any_op s1 l s' ∧ length l = 2 ∧ is_Some (cached s' 3).
Proof.
  eexists _, _, (after env_s 10 (dia_ops ++ [OClearAll; OGet HRef 3; OGet HBin 4])). split_and!.
  - apply (after_done env_s 10 dia_ops OClearAll). vm_compute. reflexivity.
  - eapply (runs_after _ _ _ _ 10 (dia_ops ++ [OClearAll; OGet HRef 3])); [|done|vm_compute; reflexivity].
    eapply (runs_after _ _ _ _ 10 (dia_ops ++ [OClearAll])); [|done|vm_compute; reflexivity].
    apply runs_nil.
  - done.
  - vm_compute. eauto.
Qed.

(** ** C25: between two builds there was an invalidation *)

(** If [o] has an artifact and is built again later, then in between, at a time
    it still had one, a call was made that may remove or change it. *)
Theorem C25_between_builds E s l s' o :
  reachable E s → cached s o ≠ None → runs E any_op s l s' → reent s' = false → builds s o < builds s' o →
  ∃ l1 s1 x y s2 l2, l = l2 ++ (x, y) :: l1 ∧ runs E any_op s l1 s1 ∧ runs E any_op s1 [(x, y)] s2 ∧
    runs E any_op s2 l2 s' ∧ cached s1 o ≠ None ∧ ¬ keeps o s1 x.
Proof. intros [I Hst]%reach_Inv. exact (between_builds E s l s' o I Hst). Qed.
Print Assumptions C25_between_builds.

Example C25_between_builds_applies : ∃ l s', reachable env_s s_diamond ∧ cached s_diamond 3 ≠ None ∧
  runs env_s any_op s_diamond l s' ∧ reent s' = false ∧ builds s_diamond 3 < builds s' 3.
Proof.
  eexists _, (after env_s 10 (dia_ops ++ [OInvalidate 0; OGet HRef 3])). split_and!.
  - apply diamond_reachable.
  - vm_compute. done.
  - eapply (runs_after _ _ _ _ 10 (dia_ops ++ [OInvalidate 0])); [|done|vm_compute; reflexivity].
    eapply (runs_after _ _ _ _ 10 dia_ops); [|done|vm_compute; reflexivity]. apply runs_nil.
  - vm_compute. reflexivity.
  - vm_compute. lia.
Qed.

(** ** C09: exactly when garbage collection panics *)

(** It panics if and only if for some address: the builder there was purged, or
    one the cache did not know was invalidated or [lookup_mut]-ed, since then
    the cache came to know no builder at that address, and was not cleared with
    [clear_all]. *)
Theorem C09_exact E s m :
  reachable E s →
  (∃ s2, step E m OGc s = Panic PkGcIndex s2) ↔
  ∃ a s0 n x r s1 l, reachable E s0 ∧ step E n x s0 = Done r s1 ∧ spoils x s0 a ∧
    runs E (λ t y, ¬ occupied t a ∧ y ≠ OClearAll) s1 l s ∧ ¬ occupied s a.
Proof.
  intros Hr. pose proof (reach_Inv E _ s Hr) as [I Hst]. rewrite (gc_panics_loose E s m I).
  split; intros [a Ha]; exists a; by apply (loose_history E s a Hr).
Qed.
Print Assumptions C09_exact.

Corollary C09_unknown_lookup_mut_then_gc_panics E s n o f r s1 m :
  reachable E s → ¬ knows s o →
  step E n (OLookupMut o f) s = Done r s1 → ∃ s2, step E m OGc s1 = Panic PkGcIndex s2.
Proof.
  intros [I Hst]%reach_Inv Hk Hs. destruct (step_Inv E _ _ _ _ _ I Hst Hs) as [I1 _].
  apply (gc_panics_loose E s1 m I1). exact (unknown_lookup_mut_loose E n o f r s s1 I Hst Hk Hs).
Qed.
Print Assumptions C09_unknown_lookup_mut_then_gc_panics.

Example C09_exact_applies : ∃ s1, reachable env_b s1 ∧ ∃ s2, step env_b 10 OGc s1 = Panic PkGcIndex s2.
Proof.
  exists (after env_b 10 (dia_ops ++ [OPurge 3; OGet HRef 4])). split; [apply after_reachable|].
  destruct (after_panics env_b 10 (dia_ops ++ [OPurge 3; OGet HRef 4]) OGc PkGcIndex) as (s2 & Hs2 & _); [vm_compute; reflexivity|]. exists s2. exact Hs2.
Qed.
Example C09_unknown_applies : ∃ r s1, reachable env_b (after env_b 10 (take 5 dia_ops)) ∧
  ¬ knows (after env_b 10 (take 5 dia_ops)) 4 ∧
  step env_b 10 (OLookupMut 4 (λ v, v)) (after env_b 10 (take 5 dia_ops)) = Done r s1.
Proof.
  eexists _, _. split_and!; [apply after_reachable| |].
  - rewrite <- knows_b_spec. vm_compute. done.
  - apply (after_done env_b 10 (take 5 dia_ops) (OLookupMut 4 (λ v, v))). vm_compute. reflexivity.
Qed.

(** ** C14: after the panic *)

(** The user may catch the panic of [get_mut] or [lookup_mut] and go on.  Then
    all artifacts but possibly that of [o], all states and all known builders
    are still there, but no builder depends on [o] any more. *)
Theorem C14_panic_aftermath E s n x o s' :
  reachable E s → mut_of x o → step E n x s = Panic PkCounterpart s' →
  (∀ u, ¬ depends s' u o) ∧ (∀ u, u ≠ o → cached s' u = cached s u) ∧ (∀ u, state_of s' u = state_of s u) ∧
  (∀ u, knows s' u ↔ knows s u) ∧ objs s' = objs s ∧ alive s' = alive s.
Proof. intros [I Hst]%reach_Inv. exact (mut_panic_after E n x o s s' I Hst). Qed.
Print Assumptions C14_panic_aftermath.

(** Hence invalidating [o] then leaves the artifacts of its former dependents:
    what C04 promises for the dependencies that were recorded is lost by such a panic. *)
Theorem C14_panic_stale E s n x o s' m :
  reachable E s → mut_of x o → step E n x s = Panic PkCounterpart s' →
  (∀ u, depends s u o → u ≠ o → ¬ depends s o u) →
  ∃ s2, step E m (OInvalidate o) (unwound s') = Done OutUnit s2 ∧ cached s2 o = None ∧
    ∀ u, u ≠ o → cached s2 u = cached s u.
Proof. intros [I Hst]%reach_Inv. exact (mut_panic_stale E n x o s s' m I Hst). Qed.
Print Assumptions C14_panic_stale.

Definition no_deps_b (s : st) (u : obj) : bool :=
  forallb (λ w, negb (depends_b s u w)) (map fst (map_to_list (objs s))).
Lemma no_deps_b_spec s u : no_deps_b s u = true → ∀ w, ¬ depends s u w.
Proof.
  unfold no_deps_b. rewrite forallb_forall. intros H w Hd. specialize (H w). rewrite <- elem_of_list_In in H.
  assert (w ∈ map fst (map_to_list (objs s))) as Hw.
  { destruct Hd as (du & ua & dw & wa & X & _ & _ & Hw & _). apply elem_of_list_fmap. exists (w, (dw, wa)).
    split; [done|]. by apply elem_of_map_to_list. }
  specialize (H Hw). apply negb_true_iff in H. apply depends_b_spec in Hd. congruence.
Qed.
Example C14_panic_applies : ∃ s', reachable env_b b_diamond ∧
  step env_b 10 (OGetMut 0 (λ v, v)) b_diamond = Panic PkCounterpart s' ∧
  depends b_diamond 1 0 ∧ cached b_diamond 1 ≠ None ∧ ∀ u, ¬ depends b_diamond 0 u.
Proof.
  destruct (after_panics env_b 10 dia_ops (OGetMut 0 (λ v, v)) PkCounterpart) as (s' & Hs' & _); [vm_compute; reflexivity|].
  exists s'. split_and!.
  - apply b_diamond_reachable.
  - exact Hs'.
  - apply depends_b_spec. vm_compute. reflexivity.
  - vm_compute. done.
  - apply no_deps_b_spec. vm_compute. reflexivity.
Qed.

(** ** C27: builders that wait for each other *)

(** If every run of the builders in [C] resolves a builder in [C] before it
    returns, no [get*] of one of them ever returns, at any recursion depth: it
    panics or does not terminate (in Rust: overflows the stack). *)
Theorem C27_cycle E (C : obj → Prop) s n h o r s' :
  reachable E s → (∀ w, C w → ∃ d a, at_addr s w d a ∧ must_resolve C (bd_body d)) →
  (∀ w, C w → cached s w = None) → C o → step E n (OGet h o) s ≠ Done r s'.
Proof.
  intros [I Hst]%reach_Inv Hd Hc Ho Hs. eapply (cycle_get E C); [exact I|exact Hst| |exact Ho|exact Hs]. eauto.
Qed.
Print Assumptions C27_cycle.

(** With builders that do not panic by themselves: it does not terminate. *)
Corollary C27_cycle_diverges E (C : obj → Prop) s n h o :
  reach_by E calm_op s → (∀ w, C w → ∃ d a, at_addr s w d a ∧ must_resolve C (bd_body d)) →
  (∀ w, C w → cached s w = None) → C o → step E n (OGet h o) s ≠ Illegal → step E n (OGet h o) s = NoFuel.
Proof.
  intros Hr Hd Hc Ho Hi. destruct (step E n (OGet h o) s) as [r s'|k s'| |] eqn:Hs; [..|done].
  - exfalso. eapply C27_cycle; [|exact Hd|exact Hc|exact Ho|exact Hs]. destruct Hr as [l Hl]. exists l. by eapply runs_mono.
  - exfalso. eapply (C08_calm_no_panic E s n (OGet h o) k s'); [exact Hr|done..| |exact Hs]. intros ? ? [?|?]; done.
  - done.
Qed.
Print Assumptions C27_cycle_diverges.

(** Two builders that resolve each other. *)
Definition d_wait (w : obj) : bdef := BDef 1 1 (Some VUnit) (PResolve HCloned w (λ r, PNewBin VUnit (λ b, PRet (Ok b)))).
Example C27_cycle_applies :
  let s := after env_s 10 [OAlloc (d_wait 1); OAlloc (d_wait 0)] in
  let C := λ w : obj, w = 0%N ∨ w = 1%N in
  reach_by env_s calm_op s ∧ (∀ w, C w → ∃ d a, at_addr s w d a ∧ must_resolve C (bd_body d)) ∧
  (∀ w, C w → cached s w = None) ∧ live s 0 ∧ step env_s 50 (OGet HCloned 0) s = NoFuel.
Proof.
  intros s C. split_and!.
  - apply after_by. repeat constructor; by intros ?.
  - intros w [->| ->]; eexists _, _; (split; [vm_compute; reflexivity|]); cbn; unfold C; auto.
  - intros w [->| ->]; vm_compute; reflexivity.
  - apply live_b_spec. vm_compute. reflexivity.
  - vm_compute. reflexivity.
Qed.
