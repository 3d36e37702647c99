(** Properties: observers, invalidation, purge, clear, garbage collection,
    mutable access.  Vocabulary: Spec.v. *)
From Verif Require Import Facts1 Demo.
From stdpp Require Import relations.

(** ** The observables are what the API reports *)

(** [lookup], [lookup_ref], [lookup_cloned] report [cached]; C16: they change nothing. *)
Theorem C16_lookup_observes E s n h o :
  reachable E s → live s o → how_legal E h = true →
  step E n (OLookup h o) s = Done (OutOpt (conv h <$> cached s o)) s.
Proof. intros [I _]%reach_Inv. exact (lookup_effect E n h o s I). Qed.
Print Assumptions C16_lookup_observes.

Theorem C16_get_dyn_state_observes E s n o :
  reachable E s → live s o → step E n (OGetDynState o) s = Done (OutOptVal (state_of s o)) s.
Proof. intros [I _]%reach_Inv. exact (get_dyn_state_effect E n o s I). Qed.
Print Assumptions C16_get_dyn_state_observes.

Theorem C16_is_known_observes E s n o :
  reachable E s → live s o → step E n (OIsKnown o) s = Done (OutBool (bool_decide (knows s o))) s.
Proof. intros [I _]%reach_Inv. exact (is_known_effect E n o s I). Qed.
Print Assumptions C16_is_known_observes.

(** C16: if [lookup*] reports an artifact then [get*] returns that one, changes
    nothing and runs no builder (at any recursion limit); otherwise [get*]
    either does not return or has run the builder. *)
Theorem C16_lookup_agrees_with_get E s n h o :
  reachable E s → live s o → how_legal E h = true →
  match cached s o with
  | Some b => step E n (OGet h o) s = Done (OutRes (conv h b)) s
  | None => ∀ r s', step E n (OGet h o) s = Done r s' → calls s o < calls s' o
  end.
Proof. intros [I _]%reach_Inv. exact (get_hit_or_miss E n h o s I). Qed.
Print Assumptions C16_lookup_agrees_with_get.

Example C16_applies :
  reachable env_s s_diamond ∧ live s_diamond 3 ∧ how_legal env_s HBin = true ∧
  cached s_diamond 3 = Some (Bin 3 (VPair (VSome (VNum 7)) (VSome (VNum 7)))).
Proof. split_and!; [apply diamond_reachable|by apply diamond_live|done|vm_compute; reflexivity]. Qed.

(** ** C03, C25 *)

(** Whatever happens that is not meant to invalidate [o] (including gets,
    allocations, drops, caught panics), the artifact of [o] stays the identical
    one and [o] is not run again. *)
Theorem C03_artifact_kept E s l s' o b :
  reachable E s → runs E (keeps o) s l s' → cached s o = Some b →
  cached s' o = Some b ∧ calls s' o = calls s o.
Proof. intros [I Hst]%reach_Inv. exact (keeps_runs E o s l s' b I Hst). Qed.
Print Assumptions C03_artifact_kept.

(** A successful [get*] returns what is then cached; by [C03_artifact_kept] and
    [C16_lookup_agrees_with_get] later gets return the same. *)
Theorem C03_get_caches E s n h o r s' :
  reachable E s → step E n (OGet h o) s = Done (OutRes r) s' → (∀ e, r ≠ RvErr e) →
  ∃ b, cached s' o = Some b ∧ r = conv h b ∧ live s' o.
Proof. intros [I _]%reach_Inv. exact (get_ok_cached E n h o s r s' I). Qed.
Print Assumptions C03_get_caches.

(** The three together: after a successful get, any non-invalidating history,
    another get (of any flavour) returns the same bin and runs nothing. *)
Theorem C03_get_again E s n h o r s1 l s2 n' h' :
  reachable E s → step E n (OGet h o) s = Done (OutRes r) s1 → (∀ e, r ≠ RvErr e) →
  runs E (keeps o) s1 l s2 → live s2 o → how_legal E h' = true →
  ∃ b, r = conv h b ∧ step E n' (OGet h' o) s2 = Done (OutRes (conv h' b)) s2.
Proof. intros Hr. exact (get_again E s n h o r s1 l s2 n' h' Hr). Qed.
Print Assumptions C03_get_again.

(** C25: as long as the artifact of [o] is not removed by an invalidating
    operation and no builder was ever re-entered, [o] is built successfully at
    most once, and not at all if it has an artifact already.  In particular
    ([l] a single [OGet]) at most once per get. *)
Theorem C25_at_most_one_build E s l s' o :
  reachable E s → runs E (keeps o) s l s' → reent s' = false →
  builds s' o ≤ builds s o + 1 ∧ (cached s o ≠ None → builds s' o = builds s o ∧ calls s' o = calls s o).
Proof. intros [I Hst]%reach_Inv. exact (at_most_one_build E s l s' o I Hst). Qed.
Print Assumptions C25_at_most_one_build.

Example C03_applies : ∃ l s', runs env_s (keeps 3) s_diamond l s' ∧ length l = 3 ∧
  reachable env_s s_diamond ∧ is_Some (cached s_diamond 3) ∧ reent s' = false.
Proof.
  eexists _, _. split_and!.
  - eapply (runs_after _ _ _ _ 10 ((dia_ops ++ [OGc]) ++ [OGet HRef 4%N]) (OInvalidate 4%N)).
    + eapply (runs_after _ _ _ _ 10 (dia_ops ++ [OGc]) (OGet HRef 4%N)).
      * eapply (runs_after _ _ _ _ 10 dia_ops OGc); [apply runs_nil| |vm_compute; reflexivity].
        left. by apply diamond_live.
      * done.
      * vm_compute; reflexivity.
    + cbn [keeps]. intros H. apply (closed_b_affected _ [4]%N) in H; [|vm_compute; reflexivity|set_solver]. set_solver.
    + vm_compute. reflexivity.
  - done.
  - apply diamond_reachable.
  - vm_compute. eauto.
  - vm_compute. reflexivity.
Qed.

(** ** C04, C05: invalidate *)

Theorem C04_invalidate_exact E s n o :
  reachable E s → live s o →
  ∃ s', step E n (OInvalidate o) s = Done OutUnit s' ∧
    (∀ w, affected s o w → cached s' w = None) ∧
    (∀ w, ¬ affected s o w → cached s' w = cached s w) ∧
    (∀ u w, depends s' u w ↔ depends s u w ∧ ¬ affected s o u ∧ ¬ affected s o w).
Proof. intros [I Hst]%reach_Inv. exact (invalidate_exact E s n o I). Qed.
Print Assumptions C04_invalidate_exact.

Theorem C05_invalidate_frame E s n o s' :
  reachable E s → step E n (OInvalidate o) s = Done OutUnit s' →
  (∀ w, state_of s' w = state_of s w) ∧ (∀ w, knows s' w ↔ knows s w) ∧
  number_of_known (ch s') = number_of_known (ch s) ∧
  (∀ w, live s' w ↔ live s w) ∧ (∀ w, calls s' w = calls s w).
Proof. intros [I Hst]%reach_Inv. exact (invalidate_frame E s n o s' I Hst). Qed.
Print Assumptions C05_invalidate_frame.

Example C04_applies : reachable env_s s_diamond ∧ live s_diamond 0 ∧ affected s_diamond 0 3 ∧
  ¬ affected s_diamond 0 4 ∧ is_Some (cached s_diamond 3) ∧ is_Some (cached s_diamond 4).
Proof.
  split_and!; [apply diamond_reachable|by apply diamond_live|apply diamond_affected_3|apply diamond_unaffected_4|..];
    vm_compute; eauto.
Qed.

(** C06: on every cache, also a corrupted or cyclic one, and for every
    iteration order, the invalidation loop ends after at most
    1 + (number of recorded edges) iterations. *)
Theorem C06_invalidation_terminates dbg pr a c fuel :
  fuel ≥ 1 + edge_count c → inv_loop fuel dbg pr 0 {[a]} [a] c ≠ CFuel.
Proof. intros H. apply inv_loop_no_fuel. cbn. lia. Qed.
Print Assumptions C06_invalidation_terminates.

(** ** C22, C23, C24 *)

Theorem C22_purge_exact E s n o :
  reachable E s → live s o →
  ∃ s', step E n (OPurge o) s = Done OutUnit s' ∧
    ¬ knows s' o ∧ cached s' o = None ∧ state_of s' o = None ∧
    (∀ w, affected s o w → cached s' w = None) ∧
    (∀ w, ¬ affected s o w → cached s' w = cached s w) ∧
    (∀ w, w ≠ o → state_of s' w = state_of s w ∧ (knows s' w ↔ knows s w)) ∧
    (∀ u w, depends s' u w ↔ depends s u w ∧ ¬ affected s o u ∧ ¬ affected s o w).
Proof. intros [I Hst]%reach_Inv. exact (purge_exact E s n o I). Qed.
Print Assumptions C22_purge_exact.

Theorem C23_clear_artifacts_exact E s n :
  reachable E s →
  ∃ s', step E n OClearArtifacts s = Done OutUnit s' ∧
    (∀ w, cached s' w = None) ∧ (∀ u w, ¬ depends s' u w) ∧
    (∀ w, state_of s' w = state_of s w) ∧ (∀ w, knows s' w ↔ knows s w) ∧
    (∀ w, live s' w ↔ live s w) ∧
    (* every later get of a live builder runs it again *)
    (∀ m h w r s2, live s w → how_legal E h = true → step E m (OGet h w) s' = Done r s2 → calls s w < calls s2 w).
Proof. exact (clear_artifacts_exact E s n). Qed.
Print Assumptions C23_clear_artifacts_exact.

(** C24: the cache after [clear_all] is the cache of [Cache::new]; everything
    else of the state is unchanged. *)
Theorem C24_clear_all_fresh E s n :
  ∃ s', step E n OClearAll s = Done OutUnit s' ∧ ch s' = ch init_st ∧
    objs s' = objs s ∧ alive s' = alive s ∧
    (∀ w, cached s' w = None ∧ state_of s' w = None ∧ ¬ knows s' w) ∧ number_of_known (ch s') = 0.
Proof. exact (clear_all_fresh E s n). Qed.
Print Assumptions C24_clear_all_fresh.

Example C22_applies : reachable env_s s_diamond ∧ live s_diamond 0 ∧ knows s_diamond 0 ∧
  is_Some (state_of s_diamond 0) ∧ affected s_diamond 0 3.
Proof.
  split_and!; [apply diamond_reachable|by apply diamond_live| |vm_compute; eauto|apply diamond_affected_3].
  apply knows_b_spec. vm_compute. reflexivity.
Qed.

(** ** C10, C11, C13: garbage collection *)

(** What it removes, exactly: known builders without strong reference that
    nobody depends on. *)
Theorem C11_gc_exact E s n r s' :
  reachable E s → step E n OGc s = Done r s' →
  let gone w := knows s w ∧ ¬ live s w ∧ ∀ u, ¬ depends s u w in
  (∀ w, gone w → cached s' w = None ∧ state_of s' w = None ∧ ¬ knows s' w) ∧
  (∀ w, ¬ gone w → cached s' w = cached s w ∧ state_of s' w = state_of s w ∧ (knows s' w ↔ knows s w)) ∧
  (∀ u w, depends s' u w ↔ depends s u w ∧ ¬ gone u ∧ ¬ gone w).
Proof. intros [I Hst]%reach_Inv. exact (gc_exact E s n r s' I). Qed.
Print Assumptions C11_gc_exact.

(** Live builders are untouched, whether it returns or panics. *)
Theorem C10_gc_safe E s n s' w :
  reachable E s → (∃ r, step E n OGc s = Done r s') ∨ (∃ k, step E n OGc s = Panic k s') → live s w →
  cached s' w = cached s w ∧ state_of s' w = state_of s w ∧ (knows s' w ↔ knows s w) ∧ live s' w.
Proof. intros [I Hst]%reach_Inv. exact (gc_safe E s n s' w I Hst). Qed.
Print Assumptions C10_gc_safe.

(** If it panics then because of an id it does not know, and the cache is
    unchanged (only the clock of the iteration order oracle advanced). *)
Theorem C13_gc_panic_atomic E s n k s' :
  reachable E s → step E n OGc s = Panic k s' → k = PkGcIndex ∧ ch s' = ch s ∧ s' = tock s.
Proof. intros [I Hst]%reach_Inv. exact (gc_panic_atomic E s n k s' I Hst). Qed.
Print Assumptions C13_gc_panic_atomic.

(** Two builders dropped, one of them with a live dependent. *)
Definition s_drop := after env_s 10 (dia_ops ++ [ODrop 4; ODrop 0]%N).
Example C11_applies :
  reachable env_s s_drop ∧ (∃ s', step env_s 10 OGc s_drop = Done OutUnit s') ∧
  (knows s_drop 4 ∧ ¬ live s_drop 4 ∧ ∀ u, ¬ depends s_drop u 4) ∧
  (knows s_drop 0 ∧ ¬ live s_drop 0 ∧ ∃ u, depends s_drop u 0) ∧ live s_drop 3.
Proof.
  split_and!.
  - apply after_reachable.
  - eexists. apply after_done. vm_compute. reflexivity.
  - apply knows_b_spec. vm_compute. reflexivity.
  - apply not_live_b. vm_compute. reflexivity.
  - intros u H. assert (affected s_drop 4 u) as Ha by (by apply rtc_once).
    apply (closed_b_affected _ [4]%N) in Ha; [|vm_compute; reflexivity|set_solver].
    apply elem_of_list_singleton in Ha as ->. apply depends_b_spec in H. vm_compute in H. done.
  - apply knows_b_spec. vm_compute. reflexivity.
  - apply not_live_b. vm_compute. reflexivity.
  - exists 1%N. apply depends_b_spec. vm_compute. reflexivity.
  - apply live_b_spec. vm_compute. reflexivity.
Qed.

(** ** C14: mutable access *)

(** The documentation says that [get_mut]/[lookup_mut] invalidate all
    dependents.  They panic instead, exactly if another builder depends on the
    target. *)
Theorem C14_mut_panics_iff E s n o f :
  reachable E s → live s o → e_kind E = Boxed →
  ((∃ s', step E n (OLookupMut o f) s = Panic PkCounterpart s') ↔ ∃ u, u ≠ o ∧ depends s u o) ∧
  ((∃ s', step E n (OGetMut o f) s = Panic PkCounterpart s') ↔ ∃ u, u ≠ o ∧ depends s u o).
Proof. intros [I Hst]%reach_Inv. exact (mut_panics_iff E s n o f I Hst). Qed.
Print Assumptions C14_mut_panics_iff.

(** Without dependents: the artifact is handed out and changed in place,
    nothing else happens; [get_mut] builds a missing artifact like [get_ref]. *)
Theorem C14_lookup_mut_effect E s n o f :
  reachable E s → live s o → e_kind E = Boxed → (∀ u, ¬ depends s u o) →
  ∃ s', step E n (OLookupMut o f) s = Done (OutOpt ((λ b, RvVal (bin_val b)) <$> cached s o)) s' ∧ writes s o f s'.
Proof. intros [I Hst]%reach_Inv Hl Hk. apply (op_lookup_mut_effect E n o f s I Hst Hl Hk). Qed.
Print Assumptions C14_lookup_mut_effect.

Theorem C14_get_mut_effect E s n o f :
  reachable E s → live s o → e_kind E = Boxed → (∀ u, ¬ depends s u o) →
  match cached s o with
  | Some b => ∃ s', step E n (OGetMut o f) s = Done (OutRes (RvVal (bin_val b))) s' ∧ writes s o f s'
  | None => ∃ s1, same s s1 ∧
      match step E n (OGet HRef o) s1 with
      | Done (OutRes (RvVal v)) s2 =>
          ∃ s', step E n (OGetMut o f) s = Done (OutRes (RvVal v)) s' ∧ writes s2 o f s'
      | x => step E n (OGetMut o f) s = x
      end
  end.
Proof. intros [I Hst]%reach_Inv. exact (get_mut_effect E s n o f I Hst). Qed.
Print Assumptions C14_get_mut_effect.

(** A builder that depends on itself only (it was re-entered): its artifact is
    removed, [lookup_mut] returns None. *)
Theorem C14_self_dependent E s n o f :
  reachable E s → live s o → e_kind E = Boxed → (∀ u, depends s u o ↔ u = o) →
  ∃ s', step E n (OLookupMut o f) s = Done (OutOpt None) s' ∧ forgets s (eq o) (λ _, False) s'.
Proof. intros [I Hst]%reach_Inv Hl Hk. apply (op_lookup_mut_effect E n o f s I Hst Hl Hk). Qed.
Print Assumptions C14_self_dependent.

(** … and get_mut on it first forgets the entry, and then answers like a fresh get. *)
Theorem C14_self_dependent_get_mut E s n o f :
  reachable E s → live s o → e_kind E = Boxed → (∀ u, depends s u o ↔ u = o) →
  ∃ s1, forgets s (eq o) (λ _, False) s1 ∧
    match step E n (OGet HRef o) s1 with
    | Done (OutRes (RvVal v)) s2 =>
        ∃ s', step E n (OGetMut o f) s = Done (OutRes (RvVal v)) s' ∧ writes s2 o f s'
    | x => step E n (OGetMut o f) s = x
    end.
Proof.
  intros [I Hst]%reach_Inv Hl Hk Hself.
  destruct (op_get_mut_effect E n o f s I Hst Hl Hk) as (_ & _ & H).
  destruct H as (s1 & _ & _ & _ & _ & Hf & Hm).
  { intros u. apply Hself. }
  { right. by apply Hself. }
  exists s1. split.
  - destruct Hf as [[Hn _]|[_ Hf]]; [|done]. destruct Hn. by apply Hself.
  - destruct (step E n (OGet HRef o) s1) as [[| |[]| | | | |] ?|?|?|]; try exact Hm.
    destruct Hm as (s2 & ? & ? & _). eauto.
Qed.
Print Assumptions C14_self_dependent_get_mut.

Example C14_applies : reachable env_b b_diamond ∧ live b_diamond 0 ∧ live b_diamond 3 ∧ e_kind env_b = Boxed ∧
  (∃ u, u ≠ 0%N ∧ depends b_diamond u 0) ∧ (∀ u, ¬ depends b_diamond u 3) ∧ is_Some (cached b_diamond 3).
Proof.
  split_and!.
  - apply b_diamond_reachable.
  - by apply b_diamond_live.
  - by apply b_diamond_live.
  - done.
  - exists 1%N. split; [done|]. apply depends_b_spec. vm_compute. reflexivity.
  - intros u H. assert (affected b_diamond 3 u) as Ha by (by apply rtc_once).
    apply (closed_b_affected _ [3]%N) in Ha; [|vm_compute; reflexivity|set_solver].
    apply elem_of_list_singleton in Ha as ->. apply depends_b_spec in H. vm_compute in H. done.
  - vm_compute. eauto.
Qed.
