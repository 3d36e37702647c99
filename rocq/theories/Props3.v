(** Properties: coherence of the artifact graph, recorded dependencies,
    doctor events, ranked builders.  Vocabulary: Spec.v. *)
From Verif Require Import Facts3 CohFacts DepFacts RankFacts Demo.
From stdpp Require Import relations.

(** ** C02: the artifact graph is coherent *)

(** For a cached artifact of [u], let [l] be all that happened since the last
    time [u] was built.  Whenever that build obtained something for [w], this
    dependency is still recorded and, unless it was an error, it is what the
    cache holds for [w] now: the same bin, or its current content. *)
Theorem C02_coherent E s u b l w rv :
  reachable E s → reent s = false →
  cached s u = Some b → since_call s u l → EGot u w rv ∈ l →
  depends s u w ∧
  match rv with
  | RvBin bw => cached s w = Some bw
  | RvVal v => ∃ bw, cached s w = Some bw ∧ bin_val bw = v
  | RvErr e => True
  end.
Proof.
  intros Hr Hre Hb (l2 & Ht & Hc) Hin. apply elem_of_list_split in Hin as (l1 & l3 & ->).
  destruct (reach_coh E s Hr Hre u w rv l1 (l3 ++ ECall u :: l2)) as [Hd Hcase].
  - left. eauto.
  - rewrite Ht. by rewrite <- (assoc_L (++)).
  - unfold since. unfold count in *. rewrite filter_app, app_length in Hc. lia.
  - split; [done|]. destruct Hcase as [[e ->]|(h & bw & Hw & ->)]; [done|]. destruct h; cbn; eauto.
Qed.
Print Assumptions C02_coherent.

(** There is always such a last build, and it produced the cached artifact. *)
Theorem C02_was_built E s u b :
  reachable E s → cached s u = Some b →
  ∃ l1 b' l2, since_call s u (l1 ++ EBuilt u b' :: l2) ∧ count (is_built u) l1 = 0 ∧
    bin_ptr b' = bin_ptr b ∧ (e_kind E = Shared → b' = b).
Proof.
  intros Hr Hb. destruct (reach_all_built E any_op s Hr u b Hb) as (l1 & b' & l2 & Ht & H1 & H2 & H3 & H4).
  destruct (reach_called E s Hr) as [_ Hc]. pose proof (Hc _ _ _ _ Ht) as Hin.
  apply split_call in Hin as (l3 & l4 & -> & Hn). exists l1, b', l3. split_and!; [|done..].
  exists l4. split; [by rewrite Ht, <- (assoc_L (++))|].
  unfold count in *. rewrite filter_app, app_length, filter_cons. destruct (decide _) as [H|]; [done|lia].
Qed.
Print Assumptions C02_was_built.

(** With re-entrant builders coherence is refuted: 0 resolves 1, which resolves
    0 again; this inner build of 0 gives 2, from which 1 is made; the outer
    build of 0 then replaces the artifact of 0 by 1. *)
Definition d_reent : bdef := BDef 0 0 (Some VUnit)
  (PAsk (λ n, if (n =? 102)%N then PResolve HRef 1 (λ _, PNewBin (VNum 1) (λ b, PRet (Ok b)))
              else PNewBin (VNum 2) (λ b, PRet (Ok b)))).
Definition s_reent := after env_s 10 [OAlloc d_reent; OAlloc (d_mid 0); OGet HRef 0]%N.
Theorem C02_reentrant_refuted :
  ∃ E s u b l w v bw, reachable E s ∧ reent s = true ∧ cached s u = Some b ∧ since_call s u l ∧
    EGot u w (RvVal v) ∈ l ∧ cached s w = Some bw ∧ bin_val bw ≠ v.
Proof.
  exists env_s, s_reent, 1%N, (Bin 1 (VSome (VNum 2))), (take 7 (trace s_reent)), 0%N, (VNum 2), (Bin 2 (VNum 1)).
  split_and!; try (vm_compute; reflexivity).
  - apply after_reachable.
  - exists (drop 8 (trace s_reent)). split; vm_compute; reflexivity.
  - vm_compute. set_solver.
  - done.
Qed.
Print Assumptions C02_reentrant_refuted.


Example C02_applies :
  reachable env_s s_diamond ∧ reent s_diamond = false ∧ cached s_diamond 3 = Some (Bin 3 (VPair (VSome (VNum 7)) (VSome (VNum 7)))) ∧
  ∃ l, since_call s_diamond 3 l ∧ EGot 3 1 (RvVal (VSome (VNum 7))) ∈ l ∧ EGot 3 2 (RvVal (VSome (VNum 7))) ∈ l.
Proof.
  split_and!; [apply diamond_reachable|vm_compute; reflexivity..|].
  exists (take 17 (trace s_diamond)). split_and!.
  - exists (drop 18 (trace s_diamond)). split; vm_compute; reflexivity.
  - vm_compute. set_solver.
  - vm_compute. set_solver.
Qed.

(** An error a builder got is not tracked that way: 1 got an error from 0 and
    used a default instead, 0 was built since; 1 keeps its artifact. *)
Definition d_flaky : bdef := BDef 0 0 (Some VUnit)
  (PAsk (λ n, if (n =? 102)%N then PRet (Err VUnit) else PNewBin (VNum 2) (λ b, PRet (Ok b)))).
Definition d_default (w : obj) : bdef := BDef 1 0 (Some VUnit)
  (PResolve HRef w (λ r, match r with
    | RvErr _ => PNewBin VNone (λ b, PRet (Ok b))
    | RvVal v => PNewBin (VSome v) (λ b, PRet (Ok b))
    | RvBin b => PRet (Ok b) end)).
Definition s_flaky := after env_s 10 [OAlloc d_flaky; OAlloc (d_default 0); OGet HRef 1; OGet HRef 0]%N.
Example C02_errors_not_tracked :
  reachable env_s s_flaky ∧ reent s_flaky = false ∧
  cached s_flaky 1 = Some (Bin 0 VNone) ∧ cached s_flaky 0 = Some (Bin 1 (VNum 2)) ∧ depends s_flaky 1 0.
Proof.
  split_and!; [apply after_reachable|vm_compute; reflexivity..|]. apply depends_b_spec. vm_compute. reflexivity.
Qed.

(** ** C34: which dependencies are recorded *)

(** One call [x] from [s] to [s'], during which [l] happened. *)
Theorem C34_step E s n x s' l u w :
  reachable E s → goes (step E n x s) s' → trace s' = l ++ trace s →
  depends s' u w ↔ (depends s u w ∧ ¬ drops E x s u ∧ ¬ drops E x s w) ∨ EResolve u w ∈ l.
Proof. intros [I Hst]%reach_Inv. exact (step_depends E n x s s' l u w I Hst). Qed.
Print Assumptions C34_step.

(** Whole histories: [u] is recorded as depending on [w] iff at some call [x]
    of the history [u] resolved [w] and no later call dropped [u] or [w]. *)
Theorem C34_history E s u w :
  reachable E s →
  depends s u w ↔ ∃ s0 n x s1 l0 l, reachable E s0 ∧ goes (step E n x s0) s1 ∧ trace s1 = l0 ++ trace s0 ∧
    EResolve u w ∈ l0 ∧ runs E (λ t y, ¬ drops E y t u ∧ ¬ drops E y t w) (unwound s1) l s.
Proof.
  intros Hr. rewrite (depends_history E any_op s u w Hr). split.
  - intros (s0 & n & x & s1 & l0 & l & H1 & _ & H2 & H3 & H4 & H5). exists s0, n, x, s1, l0, l. split_and!; try done.
    eapply runs_mono; [|exact H5]. intros ?? [_ H]. exact H.
  - intros (s0 & n & x & s1 & l0 & l & H1 & H2 & H3 & H4 & H5). exists s0, n, x, s1, l0, l. split_and!; try done.
    eapply runs_mono; [|exact H5]. intros ?? H. split; [done|exact H].
Qed.
Print Assumptions C34_history.

(** Precision is refuted: 1 resolved 0 only in a build that failed; its
    artifact comes from a later build that resolved nothing; still it is
    dropped when 0 is invalidated. *)
Definition d_once : bdef := BDef 1 0 (Some VUnit)
  (PAsk (λ n, if (n =? 102)%N then PResolve HRef 0 (λ _, PRet (Err VUnit)) else PNewBin (VNum 2) (λ b, PRet (Ok b)))).
Definition once_ops : list op := [OAlloc (d_leaf (VNum 7)); OAlloc d_once; OGet HRef 1; OGet HRef 1]%N.
Definition s_once := after env_s 10 once_ops.
Theorem C34_precision_refuted :
  ∃ E s u w b l n s', reachable E s ∧ reent s = false ∧ cached s u = Some b ∧ since_call s u l ∧
    (∀ v, EResolve u v ∉ l) ∧ depends s u w ∧ u ≠ w ∧
    step E n (OInvalidate w) s = Done OutUnit s' ∧ cached s' u = None.
Proof.
  exists env_s, s_once, 1%N, 0%N, (Bin 1 (VNum 2)), [EBuilt 1 (Bin 1 (VNum 2))], 10,
    (after env_s 10 (once_ops ++ [OInvalidate 0%N])).
  split_and!; [apply after_reachable|vm_compute; reflexivity..| | | |done| |vm_compute; reflexivity].
  - exists (drop 2 (trace s_once)). split; vm_compute; reflexivity.
  - intros v. set_solver.
  - apply depends_b_spec. vm_compute. reflexivity.
  - apply (after_done env_s 10 once_ops (OInvalidate 0%N)). vm_compute. reflexivity.
Qed.
Print Assumptions C34_precision_refuted.

Example C34_applies : reachable env_s s_diamond ∧ depends s_diamond 3 1 ∧ depends s_diamond 1 0 ∧ ¬ depends s_diamond 3 0 ∧
  ∃ s', goes (step env_s 10 (OInvalidate 0%N) s_diamond) s' ∧ ¬ depends s' 3 1.
Proof.
  split_and!; [apply diamond_reachable|apply depends_b_spec; vm_compute; reflexivity..| |].
  - intros H%depends_b_spec. by vm_compute in H.
  - exists (after env_s 10 (dia_ops ++ [OInvalidate 0%N])). split.
    + left. eexists. apply (after_done env_s 10 dia_ops (OInvalidate 0%N)). vm_compute. reflexivity.
    + intros H%depends_b_spec. by vm_compute in H.
Qed.

(** ** C35: the doctor's events reproduce the cache *)

Lemma rdep_told l u w : rdep (filter (λ e, told e = true) l) u w ↔ rdep l u w.
Proof.
  revert u w. induction l as [|e l IH]; [done|]. intros u w. rewrite filter_cons.
  assert (∀ o v, rtc (λ x y, rdep (filter (λ e, told e = true) l) y x) o v ↔ rtc (λ x y, rdep l y x) o v) as Hr.
  { intros o v. split; induction 1; try apply rtc_refl; (eapply rtc_l; [by apply IH|done]). }
  destruct e; (rewrite decide_True by done) || (rewrite decide_False by done); cbn [rdep]; rewrite ?IH, ?Hr; done.
Qed.
Lemma rart_told l u b : rart (filter (λ e, told e = true) l) u b ↔ rart l u b.
Proof.
  induction l as [|e l IH]; [done|]. rewrite filter_cons.
  assert (∀ o v, rtc (λ x y, rdep (filter (λ e, told e = true) l) y x) o v ↔ rtc (λ x y, rdep l y x) o v) as Hr.
  { intros o v. split; induction 1; try apply rtc_refl; (eapply rtc_l; [by apply rdep_told|done]). }
  destruct e; (rewrite decide_True by done) || (rewrite decide_False by done); cbn [rart]; rewrite ?IH, ?Hr; done.
Qed.

Theorem C35_replay E s u w b :
  reach_by E doctored s →
  (depends s u w ↔ rdep (doctor_log s) u w) ∧ (cached s u = Some b ↔ rart (doctor_log s) u b).
Proof.
  intros Hr. destruct (reach_mirrors E s Hr) as [H1 H2]. unfold doctor_log. rewrite rdep_told, rart_told. auto.
Qed.
Print Assumptions C35_replay.

(** The doctor hears nothing of the excluded operations, so they do make a
    difference: [clear_artifacts] always, garbage collection and mutable access
    unless they change nothing ([get_mut] is told about as far as it builds). *)
Theorem C35_untold_refuted E s n x s' :
  reachable E s → (x = OClearArtifacts ∨ x = OGc ∨ ∃ o f, x = OLookupMut o f) → goes (step E n x s) s' →
  doctor_log s' = doctor_log s.
Proof.
  intros [I Hst]%reach_Inv Hx Hg. pose proof (step_effect E n x s s' I Hst Hg) as He.
  assert (adds [] s s' → doctor_log s' = doctor_log s) as Ha.
  { intros [Ha _]. unfold doctor_log. by rewrite Ha. }
  destruct Hx as [->|[->|(o & f & ->)]]; cbn [effect_of] in He.
  - by apply Ha, He.
  - destruct He as [[_ H]| ->]; [by apply Ha|done].
  - by apply Ha, He.
Qed.
Print Assumptions C35_untold_refuted.

Example C35_applies :
  (∃ s, reach_by env_s doctored s ∧ depends s 1 0 ∧ cached s 1 = Some (Bin 3 (VSome (VNum 7))) ∧ trace s ≠ []) ∧
  ∃ s', step env_s 10 OClearArtifacts s_diamond = Done OutUnit s' ∧ cached s' 3 = None ∧ cached s_diamond 3 ≠ None.
Proof.
  split.
  - exists (after env_s 10 [OAlloc (d_leaf (VNum 7)); OAlloc (d_mid 0); OGet HRef 1; OInvalidate 0; OGet HRef 1]%N).
    split_and!; [|apply depends_b_spec; vm_compute; reflexivity|vm_compute; reflexivity|by vm_compute].
    apply after_by. repeat constructor.
  - exists (after env_s 10 (dia_ops ++ [OClearArtifacts])). split_and!; [|vm_compute; reflexivity|by vm_compute].
    apply (after_done env_s 10 dia_ops OClearArtifacts). vm_compute. reflexivity.
Qed.

(** ** C27: ranked builders *)

(** [R] ranks the builders that exist in [s]. *)
Theorem C27_depth E s R h o r n :
  reachable E s → ranks R s → R !! o = Some r → r < n → step E n (OGet h o) s ≠ NoFuel.
Proof. intros [I Hst]%reach_Inv HR Ho Hn. by apply (get_ranked E n R r h o s I Hst HR Ho Hn). Qed.
Print Assumptions C27_depth.

(** All calls terminate (with more than some recursion depth they do not run
    out of it), and no builder is ever re-entered. *)
Theorem C27_terminates E s x :
  reach_by E ranked_op s → ∃ m, ∀ n, m ≤ n → step E n x s ≠ NoFuel.
Proof.
  intros Hr. destruct (reach_ranked E s Hr) as [_ [R HR]]. apply reach_Inv in Hr as [I Hst].
  by apply (step_ranked E x s R I Hst HR).
Qed.
Print Assumptions C27_terminates.
Theorem C27_not_reentered E s : reach_by E ranked_op s → reent s = false.
Proof. intros Hr. by apply (reach_ranked E s Hr). Qed.
Print Assumptions C27_not_reentered.

(** Once deep enough, the depth does not matter. *)
Theorem C27_depth_irrelevant E s x n m : step E n x s ≠ NoFuel → n ≤ m → step E m x s = step E n x s.
Proof. intros Hn Hm. by destruct (step_more E n m x s Hm). Qed.
Print Assumptions C27_depth_irrelevant.

(** Builders that only resolve builders which existed before them, and create
    none, can be ranked. *)
Lemma resolves_only_ranked (P : obj → Prop) R r p :
  (∀ w, P w → ∃ rw, R !! w = Some rw ∧ rw < r) → resolves_only P p → ranked_prog R r p.
Proof. intros HP. induction p using prog_ind; cbn; try naive_solver. Qed.
Lemma max_rank (R : gmap obj nat) w r : R !! w = Some r → r ≤ map_fold (λ _ x y, max x y) 0 R.
Proof.
  revert w r. induction R as [|i x R Hi IH] using map_ind; intros w r; [by rewrite lookup_empty|].
  rewrite map_fold_insert_L by (done || intros; lia). rewrite lookup_insert_Some.
  intros [[<- <-]|[_ Hr%IH]]; lia.
Qed.
Theorem C27_grounded E s : reach_by E grounded_op s → reach_by E ranked_op s.
Proof.
  intros [l Hr]. exists l. induction Hr as [|l s n x r s' Hr IH Hx Hs|l s n x k s' Hr IH Hx Hs Hk]; [constructor|..].
  - eapply runs_done; [exact IH| |exact Hs].
    destruct x; try done. cbn in *. destruct (reach_ranked E s (ex_intro _ l IH)) as [_ [R HR]].
    exists R, (S (map_fold (λ _ x y, max x y) 0 R)). split; [done|]. destruct d. cbn in *.
    eapply resolves_only_ranked; [|exact Hx]. cbn. intros w Hw. apply HR in Hw as [rw Hrw]. exists rw. split; [done|].
    pose proof (max_rank R w rw Hrw). lia.
  - eapply runs_panic; [exact IH| |exact Hs|done]. destruct x; try done.
    cbn [step] in Hs. by destruct (alloc E d s) as [[? ?]|].
Qed.
Print Assumptions C27_grounded.

Example C27_applies : reach_by env_s grounded_op s_diamond.
Proof.
  eexists.
  eapply (runs_after _ _ _ _ 10 (take 6 dia_ops)); [|done|vm_compute; reflexivity].
  eapply (runs_after _ _ _ _ 10 (take 5 dia_ops)); [|done|vm_compute; reflexivity].
  eapply (runs_after _ _ _ _ 10 (take 4 dia_ops)); [| |vm_compute; reflexivity].
  2: { cbn. done. }
  eapply (runs_after _ _ _ _ 10 (take 3 dia_ops)); [| |vm_compute; reflexivity].
  2: { assert (∀ w, (w < 3)%N → is_Some (objs (after env_s 10 (take 3 dia_ops)) !! w)) as H.
       { intros w Hw. assert (w = 0 ∨ w = 1 ∨ w = 2)%N as [->|[->| ->]] by lia; vm_compute; eauto. }
       cbn [grounded_op bd_body d_top resolves_only].
       split; [by apply H|]. intros v. split; [by apply H|]. intros v'. by destruct v, v'. }
  eapply (runs_after _ _ _ _ 10 (take 2 dia_ops)); [| |vm_compute; reflexivity].
  2: { cbn [grounded_op bd_body d_mid resolves_only]. split; [vm_compute; eauto|by intros []]. }
  eapply (runs_after _ _ _ _ 10 (take 1 dia_ops)); [| |vm_compute; reflexivity].
  2: { cbn [grounded_op bd_body d_mid resolves_only]. split; [vm_compute; eauto|by intros []]. }
  eapply (runs_after _ _ _ _ 10 (take 0 dia_ops)); [apply runs_nil|done|vm_compute; reflexivity].
Qed.
