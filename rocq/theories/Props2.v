(** Properties: iteration orders, panics, garbage collection, errors,
    identity, known builders, dynamic states.  Vocabulary: Spec.v. *)
From Verif Require Import Facts3 Demo.
From stdpp Require Import relations.

(** ** C07: iteration orders of the hash maps and sets do not matter *)

(** One call: same outcome (output, or panic, and state); a mutable access that
    panics (C14) panics under every order, at possibly different points. *)
Theorem C07_step_order_independent E E' s n x :
  same_but_order E E' → reachable E s →
  step E n x s = step E' n x s ∨
  ∃ s1 s2, step E n x s = Panic PkCounterpart s1 ∧ step E' n x s = Panic PkCounterpart s2.
Proof. intros HE [I Hst]%reach_Inv. exact (step_order E E' HE n x s I Hst). Qed.
Print Assumptions C07_step_order_independent.

(** Whole histories: the same answers and the same final states are possible. *)
Theorem C07_history_order_independent E E' l s :
  same_but_order E E' → runs E any_op init_st l s ↔ runs E' any_op init_st l s.
Proof.
  intros HE. split; [apply (runs_order E E' HE); [apply Inv_init|done]|].
  apply (runs_order E' E (same_but_order_sym _ _ HE)); [apply Inv_init|done].
Qed.
Print Assumptions C07_history_order_independent.

(** Ascending and descending iteration; in the diamond the orders do differ. *)
Definition env_desc : env := Env (e_ask env_s) (λ _ _ _ x, 1000 - x)%N true Shared.
Example C07_applies : same_but_order env_s env_desc ∧ reachable env_s s_diamond ∧
  iter_order (e_prio env_s 0 0 0) {[100; 101]}%N ≠ iter_order (e_prio env_desc 0 0 0) {[100; 101]}%N.
Proof. split_and!; [done|apply diamond_reachable|]. vm_compute. done. Qed.

(** ** C08: panics *)

(** The only panics are those of user builders, and the two described exactly
    by C09/C13 and by C14. *)
Theorem C08_panics E s n x k s' :
  reachable E s → step E n x s = Panic k s' →
  k = PkUser ∨ (x = OGc ∧ k = PkGcIndex) ∨
  (∃ o f, (x = OGetMut o f ∨ x = OLookupMut o f) ∧ k = PkCounterpart ∧ ∃ u, u ≠ o ∧ depends s u o).
Proof. intros [I Hst]%reach_Inv. exact (panic_cases E s n x k s' I Hst). Qed.
Print Assumptions C08_panics.

(** If no builder panics by itself, there are no user panics either. *)
Theorem C08_calm_no_user_panic E s n x s' :
  reach_by E calm_op s → calm_op s x → step E n x s ≠ Panic PkUser s'.
Proof.
  intros Hr Hx Heq. pose proof (calm_reach E s Hr) as Hc. apply reach_Inv in Hr as [I Hst].
  pose proof (step_calm E n x s I Hst Hx Hc) as H. rewrite Heq in H. by apply H.
Qed.
Print Assumptions C08_calm_no_user_panic.

(** Both together: [get*], [dyn_state*], lookups, [invalidate], [purge],
    clearing never panic with calm builders. *)
Theorem C08_calm_no_panic E s n x k s' :
  reach_by E calm_op s → calm_op s x → x ≠ OGc →
  (∀ o f, x = OGetMut o f ∨ x = OLookupMut o f → ∀ u, depends s u o → u = o) →
  step E n x s ≠ Panic k s'.
Proof.
  intros Hr Hx Hgc Hm Heq. pose proof (calm_reach E s Hr) as Hc. apply reach_Inv in Hr as [I Hst].
  destruct (panic_cases E s n x k s' I Hst Heq) as [->|[[? _]|(o & f & Ho & _ & u & Hne & Hu)]]; [|done|].
  - pose proof (step_calm E n x s I Hst Hx Hc) as H. rewrite Heq in H. by apply H.
  - apply Hne. by eapply Hm.
Qed.
Print Assumptions C08_calm_no_panic.

Example C08_applies : calm_bdef (d_top 1 2) ∧ calm_bdef (d_mid 0) ∧ calm_bdef (d_fail 0) ∧ ¬ calm_bdef (d_panic 0) ∧
  (∃ s', reachable env_s s_diamond ∧ step env_s 10 (OAlloc (d_panic 0)) s_diamond = Done (OutObj 5%N) s').
Proof.
  split_and!.
  - cbn. split; [done|]. intros [] []; cbn; done.
  - cbn. split; [done|]. intros []; cbn; done.
  - cbn. split; [done|]. intros []; cbn; done.
  - cbn. intros [_ H]. exact (H (RvErr VUnit)).
  - eexists. split; [apply diamond_reachable|].
    apply (after_done env_s 10 dia_ops (OAlloc (d_panic 0))). vm_compute. reflexivity.
Qed.

(** ** C09: when garbage collection panics *)

Theorem C09_gc_returns E s n : reach_by E gc_friendly s → ∃ s', step E n OGc s = Done OutUnit s'.
Proof. apply gc_no_panic. Qed.
Print Assumptions C09_gc_returns.

(** The claim that it never panics is refuted, for every reachable state: *)
Theorem C09_purge_then_gc_panics E s n o s1 m :
  reachable E s → step E n (OPurge o) s = Done OutUnit s1 → ∃ s2, step E m OGc s1 = Panic PkGcIndex s2.
Proof. intros [I Hst]%reach_Inv. exact (purge_gc_panics E s n o s1 m I Hst). Qed.
Print Assumptions C09_purge_then_gc_panics.

Theorem C09_unknown_invalidate_then_gc_panics E s n o s1 m :
  reachable E s → ¬ knows s o →
  step E n (OInvalidate o) s = Done OutUnit s1 → ∃ s2, step E m OGc s1 = Panic PkGcIndex s2.
Proof. intros [I Hst]%reach_Inv. exact (unknown_invalidate_gc_panics E s n o s1 m I Hst). Qed.
Print Assumptions C09_unknown_invalidate_then_gc_panics.

(** [clear_all] repairs it. *)
Theorem C09_gc_returns_after_clear_all E s n m s1 :
  step E n OClearAll s = Done OutUnit s1 → ∃ s', step E m OGc s1 = Done OutUnit s'.
Proof.
  intros H. cbn [step] in H. injection H as <-. rewrite clear_all_empty. cbn [step].
  destruct (gc_ok (e_dbg E) (prio E (log EClear (set_ch empty_cache s))) (alive s) ∅ empty_cache) as [Hok _].
  - apply CInv_empty.
  - destruct Hok as (D & c & Heq & _); [done|]. cbn. rewrite Heq. cbn. eauto.
Qed.
Print Assumptions C09_gc_returns_after_clear_all.

Example C09_applies : reach_by env_s gc_friendly (after env_s 10 [OAlloc (d_leaf (VNum 1)); OGet HRef 0; OInvalidate 0]%N) ∧
  reachable env_s s_diamond ∧ ∃ s1, step env_s 10 (OPurge 3%N) s_diamond = Done OutUnit s1.
Proof.
  split_and!; [|apply diamond_reachable|].
  - eexists. eapply (runs_after _ _ _ _ 10 [OAlloc (d_leaf (VNum 1)); OGet HRef 0%N] (OInvalidate 0%N)).
    + eapply (runs_after _ _ _ _ 10 [OAlloc (d_leaf (VNum 1))] (OGet HRef 0%N)).
      * eapply (runs_after _ _ _ _ 10 [] (OAlloc (d_leaf (VNum 1)))); [apply runs_nil|done|vm_compute; reflexivity].
      * done.
      * vm_compute. reflexivity.
    + cbn. apply knows_b_spec. vm_compute. reflexivity.
    + vm_compute. reflexivity.
  - eexists. apply (after_done env_s 10 dia_ops (OPurge 3%N)). vm_compute. reflexivity.
Qed.

(** ** C12: repeated garbage collection *)

(** After at least as many returning collections as there were known builders,
    exactly those builders are known that are used, directly or not, by a live
    builder or by a dependency cycle. *)
Theorem C12_gc_complete E s n s' w :
  reachable E s → gcs E n s s' → number_of_known (ch s) ≤ n →
  knows s' w ↔ knows s w ∧ ∃ v, affected s w v ∧ (live s v ∨ tc (λ x y, depends s y x) v v).
Proof. intros [I Hst]%reach_Inv. exact (gcs_exact E n s s' w I Hst). Qed.
Print Assumptions C12_gc_complete.

(** In particular on acyclic graphs, without strong references, nothing is left. *)
Theorem C12_gc_empties E s n s' :
  reachable E s → gcs E n s s' → number_of_known (ch s) ≤ n →
  (∀ w, knows s w → ¬ live s w) → (∀ v, ¬ tc (λ x y, depends s y x) v v) →
  number_of_known (ch s') = 0 ∧ ∀ w, ¬ knows s' w ∧ cached s' w = None ∧ state_of s' w = None.
Proof.
  intros Hr Hg Hn Hl Hc. assert (∀ w, ¬ knows s' w) as Hnk.
  { intros w Hw. apply (C12_gc_complete E s n s' w Hr Hg Hn) in Hw as (Hk & v & Ha & [Hv|Hv]); [|by eapply Hc].
    destruct (decide (v = w)) as [->|Hne]; [by eapply Hl|]. apply rtc_inv_r in Ha as [->|(y & _ & Hy)]; [by eapply Hl|].
    apply depends_knows in Hy as [Hy _]. by eapply Hl. }
  split.
  - apply reach_Inv in Hr as [I Hst]. destruct (gcs_complete E n s s' I Hst Hg) as (I2 & _).
    destruct (known_set s' I2) as (X & HX & <-). apply size_empty_iff. apply elem_of_equiv_empty.
    intros x Hx%HX. by eapply Hnk.
  - intros w. split_and!; [apply Hnk|by apply cached_unknown|by apply state_unknown].
Qed.
Print Assumptions C12_gc_empties.

(** Every collection that finds something to collect makes progress, and what
    stays known keeps artifact and state. *)
Theorem C12_gc_progress E s n s' r :
  reachable E s → step E n OGc s = Done r s' →
  (∃ w, knows s w ∧ ¬ live s w ∧ ∀ u, ¬ depends s u w) → number_of_known (ch s') < number_of_known (ch s).
Proof.
  intros [I Hst]%reach_Inv Hs. destruct (step_Inv E _ _ _ _ _ I Hst Hs) as [I' _].
  exact (proj2 (gc_count E n s r s' I I' Hs)).
Qed.
Print Assumptions C12_gc_progress.

(** All of the diamond dropped: four collections (of five builders) suffice here. *)
Definition s_alldrop := after env_s 10 (dia_ops ++ [ODrop 0; ODrop 1; ODrop 2; ODrop 3; ODrop 4]%N).
Example C12_applies : reachable env_s s_alldrop ∧ number_of_known (ch s_alldrop) = 5 ∧
  (∃ s', gcs env_s 5 s_alldrop s') ∧ knows s_alldrop 0.
Proof.
  split_and!.
  - apply after_reachable.
  - vm_compute. reflexivity.
  - assert (∀ l, answer_to env_s 10 l OGc = Some (Returned OutUnit) → ∀ n s', gcs env_s n (after env_s 10 (l ++ [OGc])) s' →
      gcs env_s (S n) (after env_s 10 l) s') as H.
    { intros l Ha n s' Hg. eapply gcs_S; [by apply after_done|done]. }
    eexists. unfold s_alldrop. do 5 (apply H; [vm_compute; reflexivity|]). apply gcs_O.
  - apply knows_b_spec. vm_compute. reflexivity.
Qed.

(** ** C15: errors are not cached *)

(** [get*] gives an error only if nothing was cached and the builder was run
    and returned that error just now; then (without re-entrance) there is still
    nothing cached. *)
Theorem C15_get_error E s n h o e s' :
  reachable E s → step E n (OGet h o) s = Done (OutRes (RvErr e)) s' →
  cached s o = None ∧ (∃ t, trace s' = EFailed o e :: t) ∧ calls s o < calls s' o ∧
  (reent s' = false → cached s' o = None) ∧ live s' o.
Proof. intros [I Hst]%reach_Inv. exact (get_error E n h o s e s' I Hst). Qed.
Print Assumptions C15_get_error.

(** So the next [get*] runs the builder again. *)
Theorem C15_error_retried E s n h o e s1 n' h' r s2 :
  reachable E s → step E n (OGet h o) s = Done (OutRes (RvErr e)) s1 → reent s1 = false →
  step E n' (OGet h' o) s1 = Done r s2 → calls s1 o < calls s2 o.
Proof.
  intros Hr H1 Hre H2. destruct (C15_get_error E s n h o e s1 Hr H1) as (_ & _ & _ & Hc & Hl).
  apply reach_Inv in Hr as [I Hst]. destruct (step_Inv E _ _ _ _ _ I Hst H1) as [I1 _].
  assert (how_legal E h' = true) as Hh.
  { cbn [step] in H2. unfold get, get_with in H2. destruct (promise o s1) as [[d a]|]; [|done].
    by destruct (how_legal E h'). }
  pose proof (get_hit_or_miss E n' h' o s1 I1 Hl Hh) as H. rewrite (Hc Hre) in H. exact (H r s2 H2).
Qed.
Print Assumptions C15_error_retried.

(** Likewise for what builders are told: each error a builder got from a
    resolve was returned by the resolved builder immediately before. *)
Theorem C15_resolve_error E s l1 u w e l2 :
  reachable E s → trace s = l1 ++ EGot u w (RvErr e) :: l2 → ∃ l3, l2 = EFailed w e :: l3.
Proof. intros Hr. exact (reach_errors E any_op s Hr l1 u w e l2). Qed.
Print Assumptions C15_resolve_error.

Definition fail_ops : list op := [OAlloc (d_leaf (VNum 1)); OAlloc (d_fail 0); OAlloc (d_mid 1)]%N.
Example C15_applies : ∃ s', step env_s 10 (OGet HRef 2%N) (after env_s 10 fail_ops) = Done (OutRes (RvErr (VNum 9))) s' ∧
  reent s' = false ∧ (∃ l1 l2, trace s' = l1 ++ EGot 2 1 (RvErr (VNum 9)) :: l2) ∧ is_Some (cached s' 0).
Proof.
  eexists. split; [apply after_done; vm_compute; reflexivity|].
  split; [vm_compute; reflexivity|]. split; [|vm_compute; eauto].
  exists [EFailed 2 (VNum 9)]. eexists. vm_compute. reflexivity.
Qed.

(** ** C17: identity under address reuse *)

(** What is cached for a builder object is what the last successful [build] of
    that very object returned, and that [build] was not entered since; with boxed
    cans the artifact was possibly changed in place since. *)
Theorem C17_artifact_of_this_builder E s o b :
  reachable E s → cached s o = Some b →
  ∃ l1 b' l2, trace s = l1 ++ EBuilt o b' :: l2 ∧ count (is_built o) l1 = 0 ∧ count (is_call o) l1 = 0 ∧
    bin_ptr b' = bin_ptr b ∧ (e_kind E = Shared → b' = b).
Proof. intros Hr. exact (reach_all_built E any_op s Hr o b). Qed.
Print Assumptions C17_artifact_of_this_builder.

(** Hence the same for what [get*] returns. *)
Theorem C17_get_of_this_builder E s n h o r s' :
  reachable E s → step E n (OGet h o) s = Done (OutRes r) s' → (∀ e, r ≠ RvErr e) →
  ∃ b l1 b' l2, r = conv h b ∧ trace s' = l1 ++ EBuilt o b' :: l2 ∧ count (is_built o) l1 = 0 ∧ count (is_call o) l1 = 0 ∧
    bin_ptr b' = bin_ptr b ∧ (e_kind E = Shared → b' = b).
Proof.
  intros Hr Hs He. assert (reachable E s') as Hr'.
  { destruct Hr as [l Hl]. exists ((OGet h o, Returned (OutRes r)) :: l). by eapply runs_done. }
  apply reach_Inv in Hr as [I _]. destruct (get_ok_cached E n h o s r s' I Hs He) as (b & Hb & -> & _).
  destruct (C17_artifact_of_this_builder E s' o b Hr' Hb) as (l1 & b' & l2 & H). by exists b, l1, b', l2.
Qed.
Print Assumptions C17_get_of_this_builder.

(** A new builder has nothing in the cache, whatever lived at its address. *)
Theorem C17_new_builder_is_fresh E s n d r s' :
  reachable E s → step E n (OAlloc d) s = Done r s' →
  ∃ o, r = OutObj o ∧ objs s !! o = None ∧ live s' o ∧ (∃ a, at_addr s' o d a) ∧
    ¬ knows s' o ∧ cached s' o = None ∧ state_of s' o = None ∧ (∀ w, ¬ depends s' o w ∧ ¬ depends s' w o) ∧
    ∀ w, w ≠ o → (live s' w ↔ live s w) ∧ (knows s' w ↔ knows s w) ∧ cached s' w = cached s w ∧
                  state_of s' w = state_of s w ∧ calls s' w = calls s w.
Proof. intros [I Hst]%reach_Inv. exact (alloc_fresh E n d s r s' I). Qed.
Print Assumptions C17_new_builder_is_fresh.

(** Types: the stored artifact and state of a builder have its types (so no
    downcast fails, C08). *)
Theorem C17_types E s o d a :
  reachable E s → at_addr s o d a → known (ch s) !! a = Some o →
  (∀ e, artifacts (ch s) !! a = Some e → ar_ty e = bd_aty d) ∧
  (∀ v, dyn_states (ch s) !! a = Some v → ds_ty v = bd_sty d).
Proof.
  intros [I _]%reach_Inv Ho Hk. split; intros e He; [by eapply (ci_art_ty _ _ (i_c _ I))|by eapply (ci_dyn_ty _ _ (i_c _ I))].
Qed.
Print Assumptions C17_types.

(** Addresses are reused here: 0 is built at address 100, dropped, collected,
    then 1, of another type, is allocated at address 100 again. *)
Definition env_reuse : env := Env (λ n, 100)%N (λ _ _ _ x, x) true Shared.
Definition reuse_ops : list op :=
  [OAlloc (d_leaf (VNum 1)); OGet HRef 0; ODrop 0; OGc; OAlloc (BDef 9 9 (Some VUnit) (PNewBin (VNum 2) (λ b, PRet (Ok b)))); OGet HRef 1]%N.
Example C17_applies : reachable env_reuse (after env_reuse 10 reuse_ops) ∧
  answers env_reuse 10 reuse_ops = Some [Returned (OutObj 0); Returned (OutRes (RvVal (VNum 1))); Returned OutUnit;
    Returned OutUnit; Returned (OutObj 1); Returned (OutRes (RvVal (VNum 2)))] ∧
  (∃ d d' a, at_addr (after env_reuse 10 reuse_ops) 0 d a ∧ at_addr (after env_reuse 10 reuse_ops) 1 d' a).
Proof.
  split_and!; [apply after_reachable|vm_compute; reflexivity|]. unfold at_addr. eexists _, _, _. split; vm_compute; reflexivity.
Qed.

(** ** C19: known builders *)

Theorem C19_unknown_has_nothing E s o :
  reachable E s → ¬ knows s o → cached s o = None ∧ state_of s o = None ∧ ∀ w, ¬ depends s o w ∧ ¬ depends s w o.
Proof.
  intros _ Hk. split_and!; [by apply cached_unknown|by apply state_unknown|].
  intros w. split; intros [? ?]%depends_knows; done.
Qed.
Print Assumptions C19_unknown_has_nothing.

Theorem C19_number_of_known E s n :
  reachable E s → ∃ X : gset obj, (∀ o, o ∈ X ↔ knows s o) ∧ step E n ONumKnown s = Done (OutNum (size X)) s.
Proof. intros [I _]%reach_Inv. destruct (known_set s I) as (X & HX & Hs). exists X. split; [done|]. cbn. by rewrite Hs. Qed.
Print Assumptions C19_number_of_known.

(** Who gets known by a [get*] (returning or panicking in a builder): its
    target and everything that was resolved. *)
Theorem C19_get_makes_known E s n h o s' l :
  reachable E s → (∃ r, step E n (OGet h o) s = Done r s') ∨ step E n (OGet h o) s = Panic PkUser s' →
  trace s' = l ++ trace s →
  ∀ w, knows s' w ↔ knows s w ∨ w = o ∨ ∃ u, EResolve u w ∈ l.
Proof.
  intros [I Hst]%reach_Inv Hs. apply (get_learns E n h o s s' l I Hst).
  destruct Hs as [?|?]; [by left|right; eauto].
Qed.
Print Assumptions C19_get_makes_known.

Example C19_applies : reachable env_s (after env_s 10 [OAlloc (d_leaf VUnit)]) ∧
  ¬ knows (after env_s 10 [OAlloc (d_leaf VUnit)]) 0 ∧ live (after env_s 10 [OAlloc (d_leaf VUnit)]) 0 ∧
  ∃ s', step env_s 10 (OGet HRef 0%N) (after env_s 10 [OAlloc (d_leaf VUnit)]) = Done (OutRes (RvVal VUnit)) s' ∧ knows s' 0.
Proof.
  split_and!; [apply after_reachable| |apply live_b_spec; vm_compute; reflexivity|].
  - intros H%knows_b_spec. vm_compute in H. done.
  - eexists. split; [apply after_done; vm_compute; reflexivity|]. apply knows_b_spec. vm_compute. reflexivity.
Qed.

(** ** C20, C21: dynamic states *)

(** [dyn_state] returns the stored state, or stores and returns the initial
    one; if [init_dyn_state] panics, the builder is known without a state. *)
Theorem C20_dyn_state E s n o :
  reachable E s → live s o →
  match state_of s o, initial s o with
  | Some v, _ => step E n (ODynState o) s = Done (OutVal v) s
  | None, Some v => ∃ s', step E n (ODynState o) s = Done (OutVal v) s' ∧ sets_state s o (Some v) s'
  | None, None => ∃ s', step E n (ODynState o) s = Panic PkUser s' ∧ sets_state s o None s'
  end.
Proof. intros [I _]%reach_Inv. exact (dyn_state_effect E n o s I). Qed.
Print Assumptions C20_dyn_state.

(** [dyn_state_mut] invalidates exactly the builder and its transitive
    dependents, hands out the stored (else the initial) state and stores the
    modification. *)
Theorem C20_dyn_state_mut E s n o f :
  reachable E s → live s o →
  ∃ s1 s', forgets s (affected s o) (λ _, False) s1 ∧
  match (match state_of s o with Some v => Some v | None => initial s o end) with
  | Some v => step E n (ODynStateMut o f) s = Done (OutVal v) s' ∧ sets_state s1 o (Some (f v)) s'
  | None => step E n (ODynStateMut o f) s = Panic PkUser s' ∧ sets_state s1 o None s'
  end.
Proof. intros [I Hst]%reach_Inv. exact (dyn_state_mut_effect E n o f s I Hst). Qed.
Print Assumptions C20_dyn_state_mut.

(** Whatever else happens, as long as [o] itself is not run: its state stays,
    or, if it had none, is initialised. *)
Theorem C21_state_kept E s l s' o :
  reachable E s → runs E (state_keeps o) s l s' → calls s' o = calls s o →
  state_of s' o = state_of s o ∨ (state_of s o = None ∧ state_of s' o = initial s' o).
Proof. intros [I Hst]%reach_Inv Hr. apply (state_runs E o s l s' I Hst Hr). Qed.
Print Assumptions C21_state_kept.

(** In particular a state never gets lost or changed by [get*] of others,
    invalidation, clearing artifacts, collection while live. *)
Theorem C20_state_persists E s l s' o v :
  reachable E s → runs E (state_keeps o) s l s' → calls s' o = calls s o →
  state_of s o = Some v → state_of s' o = Some v.
Proof.
  intros Hr Hl Hc Hv. destruct (C21_state_kept E s l s' o Hr Hl Hc) as [->|[? _]]; [done|congruence].
Qed.
Print Assumptions C20_state_persists.

Example C20_applies : ∃ l s', runs env_s (state_keeps 0) s_diamond l s' ∧ length l = 2 ∧
  reachable env_s s_diamond ∧ calls s' 0 = calls s_diamond 0 ∧ state_of s_diamond 0 = Some (VNum 7).
Proof.
  eexists _, _. split_and!.
  - eapply (runs_after _ _ _ _ 10 (dia_ops ++ [OInvalidate 0%N]) (OPurge 3%N)).
    + eapply (runs_after _ _ _ _ 10 dia_ops (OInvalidate 0%N)); [apply runs_nil|done|vm_compute; reflexivity].
    + cbn. done.
    + vm_compute. reflexivity.
  - done.
  - apply diamond_reachable.
  - vm_compute. reflexivity.
  - vm_compute. reflexivity.
Qed.

(** ** C26: panicking builders *)

Theorem C26_get_panics E s n h o k s' l :
  reachable E s → step E n (OGet h o) s = Panic k s' → trace s' = l ++ trace s →
  k = PkUser ∧
  (* artifacts from before are kept, their builders are not involved *)
  (∀ w b, cached s w = Some b → cached s' w = Some b ∧ calls s' w = calls s w ∧ w ∉ stack s') ∧
  (* artifacts appeared only by builds that were completed *)
  (∀ w b, cached s' w = Some b → cached s w = Some b ∨ EBuilt w b ∈ l) ∧
  (* the builders that were being built have none *)
  (reent s' = false → NoDup (stack s') ∧ ∀ w, w ∈ stack s' → cached s' w = None) ∧
  (* and the cache can be used further; all theorems about reachable states apply *)
  reachable E (unwound s').
Proof.
  intros Hr Hs Hl. assert (reachable E (unwound s')) as Hr'.
  { destruct Hr as [h' Hh]. eexists. eapply runs_panic; [exact Hh|done|exact Hs|].
    assert (reachable E s) as [I Hst]%reach_Inv by (by exists h').
    destruct (panic_cases E s n _ k s' I Hst Hs) as [->|[[? _]|(? & ? & [?|?] & _)]]; done. }
  apply reach_Inv in Hr as [I Hst]. destruct (get_panic E n h o s k s' l I Hst Hs Hl) as (H1 & H2 & H3 & H4). done.
Qed.
Print Assumptions C26_get_panics.

(** 2 = mid(1), 1 panics after having resolved 0. *)
Definition panic_ops : list op := [OAlloc (d_leaf (VNum 1)); OAlloc (d_panic 0); OAlloc (d_mid 1)]%N.
Definition s_panicked : st :=
  match step env_s 10 (OGet HRef 2%N) (after env_s 10 panic_ops) with Panic _ s => s | _ => init_st end.
Example C26_applies : reachable env_s (after env_s 10 panic_ops) ∧ ∃ s',
  step env_s 10 (OGet HRef 2%N) (after env_s 10 panic_ops) = Panic PkUser s' ∧ stack s' = [1; 2]%N ∧ is_Some (cached s' 0) ∧ reent s' = false.
Proof.
  split; [apply after_reachable|].
  destruct (after_panics env_s 10 panic_ops (OGet HRef 2%N) PkUser) as (s' & Hs & _); [vm_compute; reflexivity|].
  exists s'. split; [exact Hs|]. assert (s_panicked = s') as <- by (unfold s_panicked; rewrite Hs; reflexivity).
  split_and!; vm_compute; eauto.
Qed.

(** ** C38: artifacts were built under the current dynamic state *)

(** If after an arbitrary history [o] has an artifact, and [o] was not run in
    between, then it had that artifact (the same bin) all along, and its
    dynamic state is the one it had. *)
Theorem C38_state_of_cached E s l s' o b' :
  reachable E s → runs E any_op s l s' → calls s' o = calls s o → cached s' o = Some b' →
  ∃ b, cached s o = Some b ∧ bin_ptr b = bin_ptr b' ∧ (e_kind E = Shared → b = b') ∧ state_of s' o = state_of s o.
Proof. intros [I Hst]%reach_Inv Hr Hc Hb. exact (proj2 (cached_runs E o s l s' I Hst Hr) Hc b' Hb). Qed.
Print Assumptions C38_state_of_cached.

Example C38_applies : ∃ l s', runs env_s any_op s_diamond l s' ∧ length l = 2 ∧ reachable env_s s_diamond ∧
  calls s' 3 = calls s_diamond 3 ∧ is_Some (cached s' 3) ∧ ∃ w, w ≠ 3%N ∧ state_of s' w ≠ state_of s_diamond w.
Proof.
  eexists _, _. split_and!.
  - eapply (runs_after _ _ _ _ 10 (dia_ops ++ [OGc]) (ODynStateMut 4%N (λ _, VNum 5))).
    + eapply (runs_after _ _ _ _ 10 dia_ops OGc); [apply runs_nil|done|vm_compute; reflexivity].
    + done.
    + vm_compute. reflexivity.
  - done.
  - apply diamond_reachable.
  - vm_compute. reflexivity.
  - vm_compute. eauto.
  - exists 4%N. split; [done|]. vm_compute. done.
Qed.
