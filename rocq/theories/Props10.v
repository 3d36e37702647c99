(** Properties: what holds after any caught panic (C41), and how to recover
    (C42).  Vocabulary: Spec.v, RoughSpec.v. *)
From Verif Require Import Facts3 RoughFacts Demo.
From stdpp Require Import relations.

(** ** C41: whatever panics were caught, artifacts are never mixed up *)

(** Calls that do not invalidate never panic by themselves; the others only by
    a missing counterpart, a failed debug assertion, or garbage collection by
    an unknown id.  Never a failed downcast, never an [unwrap] of nothing.
    (With [da] and [dd] false everywhere, [step_i] is [step]: C43_model.) *)
Theorem C41_panics E l s da dd n x k s' :
  caught E l s → step_i da dd E n x s = Panic k s' →
  k = PkUser ∨
  (invalidating x ∧ (k = PkCounterpart ∨ (k = PkDebug ∧ e_dbg E = true) ∨ (x = OGc ∧ k = PkGcIndex))).
Proof. exact (caught_panics E l s da dd n x k s'). Qed.
Print Assumptions C41_panics.

(** An artifact in the cache is what the last successful [build] of that very
    builder returned, and that was not entered since (compare C17). *)
Theorem C41_artifact_of_this_builder E l s o b :
  caught E l s → cached s o = Some b →
  ∃ l1 b' l2, trace s = l1 ++ EBuilt o b' :: l2 ∧ count (is_built o) l1 = 0 ∧ count (is_call o) l1 = 0 ∧
    bin_ptr b' = bin_ptr b ∧ (e_kind E = Shared → b' = b).
Proof. intros [[_ H] _]%caught_W. exact (H o b). Qed.
Print Assumptions C41_artifact_of_this_builder.

(** Stored artifacts and states have the types of their builder. *)
Theorem C41_types E l s o d a :
  caught E l s → at_addr s o d a → known (ch s) !! a = Some o →
  (∀ e, artifacts (ch s) !! a = Some e → ar_ty e = bd_aty d) ∧
  (∀ v, dyn_states (ch s) !! a = Some v → ds_ty v = bd_sty d).
Proof.
  intros [[I _] _]%caught_W Ho Hk. split; intros e He; [by eapply (ci_art_ty _ _ (i_c _ I))|by eapply (ci_dyn_ty _ _ (i_c _ I))].
Qed.
Print Assumptions C41_types.

(** Lookups and gets work as ever: [lookup*] and [get_dyn_state] report what is
    stored, [get*] returns a stored artifact without running anything, and
    otherwise runs the builder and stores its artifact, or passes on its error. *)
Theorem C41_lookup E l s n h o :
  caught E l s → live s o → how_legal E h = true →
  step E n (OLookup h o) s = Done (OutOpt (conv h <$> cached s o)) s.
Proof.
  intros [[I _] _]%caught_W Hl Hh. pose proof (lookup_effect E n h o (ungraph s) I Hl Hh) as H.
  change (cached (ungraph s) o) with (cached s o) in H. revert H.
  cbn [step]. change (promise o (ungraph s)) with (promise o s). destruct (promise o s) as [[d a]|]; [|done].
  rewrite Hh. change (lookup_art (e_dbg E) (ch (ungraph s)) a (bd_aty d)) with (lookup_art (e_dbg E) (ch s) a (bd_aty d)).
  destruct (lookup_art _ _ _ _); intros [= <-]; done.
Qed.
Print Assumptions C41_lookup.

Theorem C41_get_dyn_state E l s n o :
  caught E l s → live s o → step E n (OGetDynState o) s = Done (OutOptVal (state_of s o)) s.
Proof.
  intros [[I _] _]%caught_W Hl. pose proof (get_dyn_state_effect E n o (ungraph s) I Hl) as H.
  change (state_of (ungraph s) o) with (state_of s o) in H. revert H.
  cbn [step]. change (promise o (ungraph s)) with (promise o s). destruct (promise o s) as [[d a]|]; [|done].
  change (get_dyn_state (e_dbg E) a (bd_sty d) (ch (ungraph s))) with (get_dyn_state (e_dbg E) a (bd_sty d) (ch s)).
  destruct (get_dyn_state _ _ _ _); intros [= <-]; done.
Qed.
Print Assumptions C41_get_dyn_state.

Theorem C41_get_hit E l s n h o b :
  caught E l s → live s o → how_legal E h = true → cached s o = Some b →
  step E n (OGet h o) s = Done (OutRes (conv h b)) s.
Proof.
  intros [[I _] _]%caught_W Hl Hh Hb. pose proof (lookup_effect E n h o (ungraph s) I Hl Hh) as H.
  change (cached (ungraph s) o) with (cached s o) in H. rewrite Hb in H. revert H.
  cbn [step]. unfold get, get_with. change (promise o (ungraph s)) with (promise o s).
  destruct (promise o s) as [[d a]|]; [|done]. rewrite Hh.
  change (lookup_art (e_dbg E) (ch (ungraph s)) a (bd_aty d)) with (lookup_art (e_dbg E) (ch s) a (bd_aty d)).
  by destruct (lookup_art _ _ _ _); intros [= <-].
Qed.
Print Assumptions C41_get_hit.

Theorem C41_get_miss E l s n h o r s' :
  caught E l s → cached s o = None → step E n (OGet h o) s = Done (OutRes r) s' →
  calls s o < calls s' o ∧ live s' o ∧
  ((∃ b, cached s' o = Some b ∧ r = conv h b) ∨ (∃ e t, r = RvErr e ∧ trace s' = EFailed o e :: t)).
Proof.
  intros [[I _] Hst]%caught_W Hn Hs.
  assert (live s o ∧ how_legal E h = true) as [Hl Hh].
  { cbn [step] in Hs. unfold get, get_with in Hs. destruct (promise o s) as [[d a]|] eqn:Hp; [|done].
    apply promise_Some in Hp as [Hp _]. split; [done|]. by destruct (how_legal E h). }
  destruct (W_plain E n (OGet h o) s (OutRes r) s') as (s2 & Hs2 & Hsim); [done|exact Hs|].
  pose proof (get_hit_or_miss E n h o (ungraph s) I Hl Hh) as H.
  change (cached (ungraph s) o) with (cached s o) in H. rewrite Hn in H. specialize (H _ _ Hs2).
  rewrite (sim_calls s' s2 o Hsim), (sim_cached s' s2 o Hsim), (sim_live s' s2 o Hsim), (sm_trace _ _ Hsim).
  split; [exact H|].
  destruct r as [b|v|e].
  - destruct (get_ok_cached E n h o (ungraph s) _ s2 I Hs2) as (b' & Hb & Hr & Hl2); [done|]. split; [done|]. left; eauto.
  - destruct (get_ok_cached E n h o (ungraph s) _ s2 I Hs2) as (b' & Hb & Hr & Hl2); [done|]. split; [done|]. left; eauto.
  - destruct (get_error E n h o (ungraph s) e s2 I Hst Hs2) as (_ & [t Ht] & _ & _ & Hl2). split; [done|]. right; eauto.
Qed.
Print Assumptions C41_get_miss.

(** No call, not even on a damaged graph, loops while invalidating: only the
    builders' own recursion can run out of depth. *)
Theorem C41_invalidation_terminates E s n x :
  (∀ h o, x ≠ OGet h o) → (∀ o f, x ≠ OGetMut o f) → step E n x s ≠ NoFuel.
Proof.
  intros H1 H2. destruct x as [d|o|h o|o f|h o|o f|o|o f|o|o|o| | | |o| ]; cbn [step]; try done.
  - by destruct (alloc E d s) as [[? ?]|].
  - by destruct (drop_obj o s).
  - by destruct (H1 h o).
  - by destruct (H2 o f).
  - destruct (promise o s) as [[d a]|]; [|done]. destruct (how_legal E h); [|done]. by destruct (lookup_art _ _ _ _).
  - unfold op_lookup_mut, lookup_mut. destruct (e_kind E); [done|]. destruct (promise o s) as [[d a]|]; [|done].
    pose proof (inv_dependents_loses (e_dbg E) (prio E s) a (ch s)) as H.
    destruct (invalidate_dependents _ _ _ _) as [c|k c|]; [|done..].
    destruct (_ && _); [done|]. destruct (artifacts c !! a); [|done]. by destruct (_ =? _)%N.
  - destruct (promise o s) as [[d a]|]; [|done]. by destruct (ensure_dyn_state _ _ _ _ _) as [c [k|v]].
  - destruct (promise o s) as [[d a]|]; [|done].
    pose proof (invalidate_loses (e_dbg E) (prio E s 0) a (ch s)) as H.
    destruct (invalidate_by_id _ _ _ _) as [c|k c|]; [|done..]. by destruct (ensure_dyn_state _ _ _ _ _) as [? [k|v]].
  - destruct (promise o s) as [[d a]|]; [|done]. by destruct (get_dyn_state _ _ _ _).
  - destruct (promise o s) as [[d a]|]; [|done]. unfold lift.
    pose proof (invalidate_loses (e_dbg E) (prio E s 0) a (ch s)) as H. by destruct (invalidate_by_id _ _ _ _).
  - destruct (promise o s) as [[d a]|]; [|done]. unfold lift.
    pose proof (purge_shr (e_dbg E) (prio E s 0) a (ch s)) as H. by destruct (purge _ _ _ _).
  - unfold lift. pose proof (gc_shr (e_dbg E) (prio E s) (alive s) (ch s)) as H. by destruct (garbage_collection _ _ _ _).
  - by destruct (promise o s) as [[d a]|].
Qed.
Print Assumptions C41_invalidation_terminates.

(** ** C42: clearing the artifacts, or everything, repairs the cache *)

(** From then on panics are as in C08, and [invalidate], [purge] and garbage
    collection do exactly what C04, C22 and C11 say. *)
Theorem C42_panics E s n x k s' :
  recovered E s → step E n x s = Panic k s' →
  k = PkUser ∨ (x = OGc ∧ k = PkGcIndex) ∨
  (∃ o f, (x = OGetMut o f ∨ x = OLookupMut o f) ∧ k = PkCounterpart ∧ ∃ u, u ≠ o ∧ depends s u o).
Proof. intros (I & Hst & _)%recovered_Inv. exact (panic_cases E s n x k s' I Hst). Qed.
Print Assumptions C42_panics.

Theorem C42_invalidate_exact E s n o :
  recovered E s → live s o →
  ∃ s', step E n (OInvalidate o) s = Done OutUnit s' ∧
    (∀ w, affected s o w → cached s' w = None) ∧
    (∀ w, ¬ affected s o w → cached s' w = cached s w) ∧
    (∀ u w, depends s' u w ↔ depends s u w ∧ ¬ affected s o u ∧ ¬ affected s o w).
Proof. intros (I & Hst & _)%recovered_Inv. exact (invalidate_exact E s n o I). Qed.
Print Assumptions C42_invalidate_exact.

Theorem C42_purge_exact E s n o :
  recovered E s → live s o →
  ∃ s', step E n (OPurge o) s = Done OutUnit s' ∧
    ¬ knows s' o ∧ cached s' o = None ∧ state_of s' o = None ∧
    (∀ w, affected s o w → cached s' w = None) ∧
    (∀ w, ¬ affected s o w → cached s' w = cached s w) ∧
    (∀ w, w ≠ o → state_of s' w = state_of s w ∧ (knows s' w ↔ knows s w)) ∧
    (∀ u w, depends s' u w ↔ depends s u w ∧ ¬ affected s o u ∧ ¬ affected s o w).
Proof. intros (I & Hst & _)%recovered_Inv. exact (purge_exact E s n o I). Qed.
Print Assumptions C42_purge_exact.

Theorem C42_gc_exact E s n r s' :
  recovered E s → step E n OGc s = Done r s' →
  let gone w := knows s w ∧ ¬ live s w ∧ ∀ u, ¬ depends s u w in
  (∀ w, gone w → cached s' w = None ∧ state_of s' w = None ∧ ¬ knows s' w) ∧
  (∀ w, ¬ gone w → cached s' w = cached s w ∧ state_of s' w = state_of s w ∧ (knows s' w ↔ knows s w)) ∧
  (∀ u w, depends s' u w ↔ depends s u w ∧ ¬ gone u ∧ ¬ gone w).
Proof. intros (I & Hst & _)%recovered_Inv. exact (gc_exact E s n r s' I). Qed.
Print Assumptions C42_gc_exact.

(** The artifact graph is coherent again, as in C02. *)
Theorem C42_coherent E s u b l w rv :
  recovered E s → reent s = false →
  cached s u = Some b → since_call s u l → EGot u w rv ∈ l →
  depends s u w ∧
  match rv with
  | RvBin bw => cached s w = Some bw
  | RvVal v => ∃ bw, cached s w = Some bw ∧ bin_val bw = v
  | RvErr e => True
  end.
Proof.
  intros (_ & _ & _ & Hcoh)%recovered_Inv Hre Hb (l2 & Ht & Hc) Hin. apply elem_of_list_split in Hin as (l1 & l3 & ->).
  destruct (Hcoh Hre u w rv l1 (l3 ++ ECall u :: l2)) as [Hd Hcase].
  - left. eauto.
  - rewrite Ht. by rewrite <- (assoc_L (++)).
  - unfold since. unfold count in *. rewrite filter_app, app_length in Hc. lia.
  - split; [done|]. destruct Hcase as [[e ->]|(h & bw & Hw & ->)]; [done|]. destruct h; cbn; eauto.
Qed.
Print Assumptions C42_coherent.

(** And each new dependency is recorded (compare C34). *)
Theorem C42_step E s n x s' l u w :
  recovered E s → goes (step E n x s) s' → trace s' = l ++ trace s →
  depends s' u w ↔ (depends s u w ∧ ¬ drops E x s u ∧ ¬ drops E x s w) ∨ EResolve u w ∈ l.
Proof. intros (I & Hst & _)%recovered_Inv. exact (step_depends E n x s s' l u w I Hst). Qed.
Print Assumptions C42_step.

(** ** Examples *)

(** Running on after every panic. *)
Fixpoint go_on (E : env) (fuel : nat) (l : list op) (s : st) : option (list answer * st) :=
  match l with
  | [] => Some ([], s)
  | x :: l' =>
    match step E fuel x s with
    | Done r s' => match go_on E fuel l' s' with Some (rs, s'') => Some (Returned r :: rs, s'') | None => None end
    | Panic k s' => match go_on E fuel l' (unwound s') with Some (rs, s'') => Some (Panicked k :: rs, s'') | None => None end
    | _ => None
    end
  end.
Definition mess (E : env) (fuel : nat) (l : list op) : st :=
  match go_on E fuel l init_st with Some (_, s) => s | None => init_st end.
Lemma go_on_caught E fuel l : ∀ h s rs s', caught E h s → go_on E fuel l s = Some (rs, s') → ∃ h', caught E h' s'.
Proof.
  induction l as [|x l IH]; intros h s rs s' Hc; cbn [go_on].
  - intros [= <- <-]. eauto.
  - destruct (step E fuel x s) as [r s1|k s1| |] eqn:Hs; try done.
    + destruct (go_on E fuel l s1) as [[rs1 s2]|] eqn:H1; [|done]. intros [= <- <-].
      eapply IH; [|exact H1]. apply (caught_done E h s no_bomb no_bomb fuel); [done|]. by rewrite step_none.
    + destruct (go_on E fuel l (unwound s1)) as [[rs1 s2]|] eqn:H1; [|done]. intros [= <- <-].
      eapply IH; [|exact H1]. apply (caught_panic E h s no_bomb no_bomb fuel); [done|by rewrite step_none|].
      intros Hb. destruct x; try done. by destruct Hb as (_ & ? & ? & _ & ?).
Qed.
Lemma mess_caught E fuel l : ∃ h, caught E h (mess E fuel l).
Proof.
  unfold mess. destruct (go_on E fuel l init_st) as [[rs s]|] eqn:H; [|exists []; constructor].
  eapply go_on_caught; [constructor|exact H].
Qed.

Definition panic_of {A} (x : outcome A) : option pkind := match x with Panic k _ => Some k | _ => None end.
Lemma panic_of_spec {A} (x : outcome A) k : panic_of x = Some k → ∃ s', x = Panic k s'.
Proof. destruct x; try done. intros [= ->]. eauto. Qed.

(** [get_mut] of the leaf of the diamond panics; after that even [invalidate],
    [purge] and [dyn_state_mut] of a dependent panic, which they never do in a
    reachable state (C08).  All other artifacts are still there. *)
Definition mess_ops : list op := (dia_ops ++ [OGetMut 0 (λ _, VNum 77)])%N.
Example C41_applies :
  (∃ h, caught env_b h (mess env_b 10 mess_ops)) ∧
  live (mess env_b 10 mess_ops) 3 ∧ is_Some (cached (mess env_b 10 mess_ops) 3) ∧
  (∃ s', step env_b 10 (OInvalidate 2%N) (mess env_b 10 mess_ops) = Panic PkCounterpart s') ∧
  (∃ s', step env_b 10 (OPurge 2%N) (mess env_b 10 mess_ops) = Panic PkCounterpart s') ∧
  (∃ s', step env_b 10 (ODynStateMut 2%N id) (mess env_b 10 mess_ops) = Panic PkCounterpart s').
Proof.
  split_and!; [apply mess_caught|apply live_b_spec; vm_compute; reflexivity|vm_compute; eauto|..];
    apply panic_of_spec; vm_compute; reflexivity.
Qed.
(** A miss in such a state: 2 was invalidated (with a panic) and is built again. *)
Example C41_miss_applies : ∃ r s', cached (mess env_b 10 (mess_ops ++ [OPurge 2%N])) 2 = None ∧
  step env_b 10 (OGet HRef 2%N) (mess env_b 10 (mess_ops ++ [OPurge 2%N])) = Done (OutRes r) s'.
Proof.
  assert (∀ (x : outcome out), (match x with Done (OutRes _) _ => true | _ => false end) = true → ∃ r s', x = Done (OutRes r) s') as H.
  { intros [[] ?|? ?| |]; try done. eauto. }
  destruct (H (step env_b 10 (OGet HRef 2%N) (mess env_b 10 (mess_ops ++ [OPurge 2%N])))) as (r & s' & Hs);
    [vm_compute; reflexivity|]. exists r, s'. split; [vm_compute; reflexivity|exact Hs].
Qed.

(** The same, cleared, and everything built again. *)
Definition s_recovered : st := mess env_b 10 (mess_ops ++ [OClearArtifacts; OGet HRef 3]%N).
Lemma go_on_app E fuel l1 l2 s :
  go_on E fuel (l1 ++ l2) s =
    match go_on E fuel l1 s with
    | Some (rs, s1) => match go_on E fuel l2 s1 with Some (rs2, s2) => Some (rs ++ rs2, s2) | None => None end
    | None => None
    end.
Proof.
  revert s. induction l1 as [|x l1 IH]; intros s; cbn [go_on app].
  - by destruct (go_on E fuel l2 s) as [[]|].
  - destruct (step E fuel x s) as [r s1|k s1| |]; try done.
    + rewrite IH. destruct (go_on E fuel l1 s1) as [[rs s2]|]; [|done]. by destruct (go_on E fuel l2 s2) as [[]|].
    + rewrite IH. destruct (go_on E fuel l1 (unwound s1)) as [[rs s2]|]; [|done]. by destruct (go_on E fuel l2 s2) as [[]|].
Qed.
Lemma mess_step E fuel l x r : (match go_on E fuel l init_st with Some _ => true | None => false end) = true →
  (match step E fuel x (mess E fuel l) with Done r' _ => Some r' | _ => None end) = Some r →
  step E fuel x (mess E fuel l) = Done r (mess E fuel (l ++ [x])).
Proof.
  unfold mess. rewrite go_on_app. destruct (go_on E fuel l init_st) as [[rs s]|]; [|done]. intros _. cbn [go_on].
  destruct (step E fuel x s) as [r' s'|k s'| |]; try done. intros [= ->]. done.
Qed.
Lemma mess_snoc E fuel l x y : mess E fuel ((l ++ [x]) ++ [y]) = mess E fuel (l ++ [x; y]).
Proof. by rewrite <- (assoc_L (++)). Qed.
Example C42_applies : recovered env_b s_recovered ∧ reent s_recovered = false ∧ live s_recovered 0 ∧
  affected s_recovered 0 3 ∧ is_Some (cached s_recovered 3).
Proof.
  split_and!.
  - destruct (mess_caught env_b 10 mess_ops) as [h Hh].
    exists (mess env_b 10 mess_ops), 10, OClearArtifacts, OutUnit, (mess env_b 10 (mess_ops ++ [OClearArtifacts])),
      [(OGet HRef 3%N, Returned (OutRes (RvVal (VPair (VSome (VNum 7)) (VSome (VNum 7))))))].
    split; [left; eauto|].
    split; [apply mess_step; vm_compute; reflexivity|].
    eapply (runs_done env_b any_op _ [] _ 10); [constructor|done|].
    unfold s_recovered. rewrite <- (mess_snoc env_b 10 mess_ops OClearArtifacts (OGet HRef 3%N)).
    apply mess_step; vm_compute; reflexivity.
  - vm_compute. reflexivity.
  - apply live_b_spec. vm_compute. reflexivity.
  - apply (rtc_l _ _ 1%N); [apply depends_b_spec; vm_compute; reflexivity|].
    apply rtc_once. apply depends_b_spec. vm_compute. reflexivity.
  - vm_compute. eauto.
Qed.
