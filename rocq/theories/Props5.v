(** C39, C40: what the cache holds comes from running the code of the builders. *)
From Verif Require Import PlayFacts Demo Props3.
From stdpp Require Import relations.

(** ** C39: builders do only what their code says *)

(** Everything the cache did on behalf of a builder — resolving a builder,
    storing an artifact, reporting an error — is something that the code of
    that builder can do ([allowed], CodeSpec.v). *)
Theorem C39_code E s e : reachable E s → e ∈ trace s → allowed s e.
Proof. intros Hr. exact (reach_allowed E any_op s Hr e). Qed.
Print Assumptions C39_code.

(** A recorded dependency is one that the code of the dependent can resolve. *)
Theorem C39_dependencies E s u w d a :
  reachable E s → depends s u w → at_addr s u d a → can_resolve d w.
Proof.
  intros Hr Hd Hat. apply (depends_history E any_op s u w Hr) in Hd as (s0 & n & x & s1 & l0 & l & H0 & _ & Hg & Ht & Hin & Hrun).
  destruct (reach_allowed E any_op s Hr (EResolve u w)) as (d' & a' & Hat' & Hc).
  - destruct (reach_Inv E any_op s0 H0) as [I0 Hst0].
    assert (Inv (unwound s1)) as I1 by (by eapply goes_Inv).
    destruct (runs_trace E _ _ _ _ I1 eq_refl Hrun) as [l' ->]. cbn. rewrite Ht. set_solver.
  - unfold at_addr in *. congruence.
Qed.
Print Assumptions C39_dependencies.

(** An error that [get] returns is one that the builder's code can return. *)
Theorem C39_errors E s n h o e s' d a :
  reachable E s → step E n (OGet h o) s = Done (OutRes (RvErr e)) s' → at_addr s o d a → can_return d (Err e).
Proof.
  intros Hr Hs Hat. destruct (reach_Inv E any_op s Hr) as [I Hst].
  destruct (get_error E n h o s e s' I Hst Hs) as (_ & (t & Ht) & _).
  assert (reachable E s') as Hr'. { destruct Hr as [l Hl]. eexists. by eapply runs_done. }
  destruct (reach_allowed E any_op s' Hr' (EFailed o e)) as (d' & a' & Hat' & Hc); [rewrite Ht; left|].
  assert (at_addr s' o d a). { eapply (objs_mono E n (OGet h o) o (d, a) s s' I Hst); [left; eauto|done]. }
  unfold at_addr in *. congruence.
Qed.
Print Assumptions C39_errors.

(** ** C40: an artifact is the result of one run of the builder's code *)

(** The artifact [b] that the cache holds for [o] is what one complete run of
    the [build] of [o] returned ([plays], CodeSpec.v); that run left the dynamic
    state as it is now, and whatever it was given for a builder [w] it resolved
    is what the cache holds for [w] now (and [w] is recorded as dependency).
    For histories in which the user does not write to the artifact of [o]
    through a [&mut], and in which [o] was not re-entered (see C27 for when
    that is so). *)
Theorem C40_run E s o b :
  reach_by E (unmutated o) s → reent s = false → cached s o = Some b →
  ∃ d a v0 v l, at_addr s o d a ∧ plays (bd_body d) v0 l (PRet (Ok b)) v ∧ state_of s o = Some v ∧
    ∀ w rv, (w, rv) ∈ l → depends s o w ∧
      match rv with
      | RvBin bw => cached s w = Some bw
      | RvVal x => ∃ bw, cached s w = Some bw ∧ bin_val bw = x
      | RvErr e => True
      end.
Proof.
  intros Hr Hre Hb. destruct (reach_playing E o (λ _, True) s b (λ _, I) Hr (or_introl Hre) Hb) as (d & a & v0 & v & _ & Hat & Hpl & Hv).
  assert (reachable E s) as Hr'. { destruct Hr as [l Hl]. exists l. eapply runs_mono; [|exact Hl]. done. }
  exists d, a, v0, v, (gots o (trace s)). split_and!; [done..|]. intros w rv Hin.
  destruct (C02_was_built E s o b Hr' Hb) as (l1 & b' & l2 & Hsc & _).
  apply (gots_since s o w rv _ Hsc) in Hin. by eapply C02_coherent.
Qed.
Print Assumptions C40_run.

(** With shared cans ([Rc], [Arc]) this holds in all histories. *)
Corollary C40_shared E s o b :
  e_kind E = Shared → reachable E s → reent s = false → cached s o = Some b →
  ∃ d a v0 v l, at_addr s o d a ∧ plays (bd_body d) v0 l (PRet (Ok b)) v ∧ state_of s o = Some v ∧
    ∀ w rv, (w, rv) ∈ l → depends s o w ∧
      match rv with
      | RvBin bw => cached s w = Some bw
      | RvVal x => ∃ bw, cached s w = Some bw ∧ bin_val bw = x
      | RvErr e => True
      end.
Proof. intros Hk Hr. apply (C40_run E). by apply shared_unmutated. Qed.
Print Assumptions C40_shared.

(** A [get] that misses is one run of the builder's code, started with the
    dynamic state that the cache has (or else the initial one).  It returns what
    the code returns, caches it if it is an artifact, and leaves the dynamic
    state as the code left it; whatever was resolved is recorded as dependency,
    also when the build fails. *)
Theorem C40_get E s n h o r s' :
  reachable E s → cached s o = None → step E n (OGet h o) s = Done (OutRes r) s' → reent s' = false ∨ leaf s' o →
  ∃ d a v0 v l res, at_addr s o d a ∧ config s o = Some v0 ∧ plays (bd_body d) v0 l (PRet res) v ∧
    r = match res with Ok b => conv h b | Err e => RvErr e end ∧
    cached s' o = match res with Ok b => Some b | Err e => None end ∧ state_of s' o = Some v ∧ l = gots o (trace s') ∧
    ∀ w rv, (w, rv) ∈ l → EGot o w rv ∈ trace s' ∧ depends s' o w.
Proof. intros [I Hst]%reach_Inv. exact (get_plays E n h o s r s' I Hst). Qed.
Print Assumptions C40_get.
Example C40_get_applies :
  ∃ s', step env_s 10 (OGet HRef 0) (after env_s 10 [OAlloc (d_leaf (VNum 7))]) = Done (OutRes (RvVal (VNum 7))) s' ∧ reent s' = false ∧
    cached (after env_s 10 [OAlloc (d_leaf (VNum 7))]) 0 = None.
Proof.
  exists (after env_s 10 ([OAlloc (d_leaf (VNum 7))] ++ [OGet HRef 0])). split_and!; [|vm_compute; reflexivity..].
  apply (after_done env_s 10 [OAlloc (d_leaf (VNum 7))]). vm_compute. reflexivity.
Qed.

(** If it panics, then since [init_dyn_state] does, or the run of the code got
    to a panic, or to resolving a builder. *)
Theorem C40_get_panics E s n h o k s' :
  reachable E s → step E n (OGet h o) s = Panic k s' → reent s' = false ∨ leaf s' o →
  ∃ d a, at_addr s o d a ∧ (config s o = None ∨
    ∃ v0 v l p, config s o = Some v0 ∧ plays (bd_body d) v0 l p v ∧ l = gots o (trace s') ∧ (p = PPanic ∨ ∃ h w k, p = PResolve h w k)).
Proof.
  intros Hr Hs. destruct (reach_Inv E any_op s Hr) as [I Hst].
  assert (k = PkUser) as ->.
  { destruct (step_panic E _ _ _ _ _ I Hst Hs) as [[-> _]|[(? & _)|[(? & ? & ? & ? & [?|?] & _) _]]]; done. } exact (get_plays_panic E n h o s s' I Hst Hs).
Qed.
Print Assumptions C40_get_panics.

(** A builder that resolves nothing cannot be re-entered: its artifact is always
    that of a run that resolved nothing. *)
Theorem C40_leaf E s o b :
  reach_by E (unmutated o) s → leaf s o → cached s o = Some b →
  ∃ d a v0 v, at_addr s o d a ∧ plays (bd_body d) v0 [] (PRet (Ok b)) v ∧ state_of s o = Some v.
Proof.
  intros Hr Hl Hb. destruct (reach_playing E o (λ _, True) s b (λ _, I) Hr (or_intror Hl) Hb) as (d & a & v0 & v & _ & Hat & Hpl & Hv).
  exists d, a, v0, v. split_and!; [done| |done]. replace [] with (gots o (trace s)); [done|].
  destruct (gots o (trace s)) as [|[w rv] l] eqn:Hg; [done|]. exfalso.
  assert (reachable E s) as Hr'. { destruct Hr as [l' Hl']. exists l'. eapply runs_mono; [|exact Hl']. done. }
  destruct (C02_was_built E s o b Hr' Hb) as (l1 & b' & l2 & Hsc & _).
  assert ((w, rv) ∈ gots o (trace s)) as Hin by (rewrite Hg; left).
  apply (gots_since s o w rv _ Hsc) in Hin. destruct Hsc as (l3 & Ht & _).
  destruct (C39_code E s (EGot o w rv) Hr') as (d' & a' & Hat' & h & k & Hk & _); [rewrite Ht; set_solver|].
  apply (Hl d' a' w Hat'). by exists h, k.
Qed.
Print Assumptions C40_leaf.

(** The diamond meets all this: what its top holds is a run of [d_top] on what
    the two builders in the middle hold. *)
Example C40_applies :
  e_kind env_s = Shared ∧ reachable env_s s_diamond ∧ reent s_diamond = false ∧
  cached s_diamond 3 = Some (Bin 3 (VPair (VSome (VNum 7)) (VSome (VNum 7)))) ∧ depends s_diamond 3 1 ∧
  leaf s_diamond 0 ∧ is_Some (cached s_diamond 0).
Proof.
  split_and!; try (vm_compute; reflexivity).
  - apply after_reachable.
  - apply depends_b_spec. vm_compute. reflexivity.
  - intros d a w Hat. assert (option_map fst (objs s_diamond !! 0%N) = Some (d_leaf (VNum 7))) as H0 by (vm_compute; reflexivity).
    unfold at_addr in Hat. rewrite Hat in H0. injection H0 as ->.
    intros (h & k & Hr). revert Hr. unfold reaches.
    intros Hr. inversion Hr as [|? ? ? H1 H2]; subst. inversion H1; subst.
    inversion H2 as [|? ? ? H3 H4]; subst. inversion H3; subst. inversion H4 as [|? ? ? H5 H6]; subst. inversion H5.
  - vm_compute. eauto.
Qed.
