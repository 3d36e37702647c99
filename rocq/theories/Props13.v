(** Properties: what can be seen of a cache is all there is to it, and the laws of
    the calls that remove or change things (C46). *)
From Verif Require Import RefLaws Demo.
From stdpp Require Import relations.

(** ** C46: interchangeable caches

    [interchangeable s s'] (RefLaws.v): every sequence of calls made from [s] gets
    the same answers from [s'], whatever is built in between, if the outside world
    does the same from now on. *)

Definition shifted (ask : nat → N) (t t' : nat) (n : nat) : N := ask (t + (n - t')).
Theorem C46_equivalence :
  (∀ E s, reachable E s → interchangeable s s) ∧ (∀ s s', interchangeable s s' → interchangeable s' s) ∧
  (∀ s s' s'', interchangeable s s' → interchangeable s' s'' → interchangeable s s'').
Proof.
  split_and!.
  - intros E s [l Hr]. destruct (reach_Inv E any_op s (ex_intro _ l Hr)) as [I Hst]. destruct (history_sound E l s Hr) as (A & _ & H).
    eapply (like_interchangeable s A s A (r_tick A) (r_log A)); [done..|]. by destruct A.
  - intros s s' H E E' Hk Ha l x y. symmetry. apply H; [done|]. intros i. symmetry. apply Ha.
  - intros s s' s'' H1 H2 E E'' Hk Ha l x y.
    pose (E' := Env (shifted (e_ask E) (tick s) (tick s')) (e_prio E) (e_dbg E) (e_kind E)).
    assert (∀ i, e_ask E (tick s + i) = e_ask E' (tick s' + i)) as Hs.
    { intros i. cbn. unfold shifted. f_equal. lia. }
    rewrite (H1 E E' eq_refl Hs l x y). apply H2; [done|]. intros i. rewrite <- Hs. apply Ha.
Qed.
Print Assumptions C46_equivalence.

(** It says something: interchangeable caches hold the same artifacts and dynamic
    states of the builders somebody can ask for, and know the same of them. *)
Theorem C46_observed E E' s s' o :
  reachable E s → reachable E' s' → interchangeable s s' → live s o →
  live s' o ∧ cached s o = cached s' o ∧ state_of s o = state_of s' o ∧ (knows s o ↔ knows s' o).
Proof.
  intros [l Hr] [l' Hr'] HI Hl.
  destruct (reach_Inv E any_op s (ex_intro _ l Hr)) as [I _]. destruct (reach_Inv E' any_op s' (ex_intro _ l' Hr')) as [I' _].
  pose (W := Env (λ _, 0%N) (e_prio E) false Shared). specialize (HI W W eq_refl (λ _, eq_refl)).
  assert (∀ x r, step W 0 x s = Done r s → (∀ n, step W n x s' = step W 0 x s') → ∃ t, step W 0 x s' = Done r t) as Hx.
  { intros x r H Hn. destruct (proj1 (HI [] x (Returned r))) as (t & t' & Ht & n & Hs).
    - exists s, s. split; [constructor|by exists 0].
    - inversion Ht; subst. exists t'. by rewrite <- Hn with n. }
  assert (live s' o) as Hl'.
  { destruct (Hx (OIsKnown o) _ (is_known_effect W 0 o s I Hl) (λ n, eq_refl)) as [t Ht]. cbn [step] in Ht.
    destruct (promise o s') as [[d a]|] eqn:Hp; [|done]. by apply promise_Some in Hp as [? _]. }
  split; [done|]. split_and!.
  - destruct (Hx (OLookup HBin o) _ (lookup_effect W 0 HBin o s I Hl eq_refl) (λ n, eq_refl)) as [t Ht].
    rewrite (lookup_effect W 0 HBin o s' I' Hl' eq_refl) in Ht. injection Ht as Ht _.
    destruct (cached s o), (cached s' o); cbn in Ht; congruence.
  - destruct (Hx (OGetDynState o) _ (get_dyn_state_effect W 0 o s I Hl) (λ n, eq_refl)) as [t Ht].
    rewrite (get_dyn_state_effect W 0 o s' I' Hl') in Ht. congruence.
  - destruct (Hx (OIsKnown o) _ (is_known_effect W 0 o s I Hl) (λ n, eq_refl)) as [t Ht].
    rewrite (is_known_effect W 0 o s' I' Hl') in Ht. injection Ht as Ht _.
    rewrite <- (bool_decide_spec (knows s o)), <- (bool_decide_spec (knows s' o)). by rewrite Ht.
Qed.
Print Assumptions C46_observed.

(** Conversely, nothing else matters: two caches, however they came about, with
    the same artifacts, dynamic states, known builders and dependencies, the same
    builders around, and the same left-over addresses (of builders which were
    purged, or invalidated while unknown, see C09), are interchangeable.  The order
    of events, the hash maps, leaf sets, and work lists do not matter. *)
Definition left_over (s : st) (a : addr) : Prop := a ∈ leafs (ch s) ∧ known (ch s) !! a = None.
Theorem C46_observables E E' s s' :
  reachable E s → reachable E' s' →
  (∀ o, cached s o = cached s' o) → (∀ o, state_of s o = state_of s' o) → (∀ o, knows s o ↔ knows s' o) →
  (∀ u w, depends s u w ↔ depends s' u w) → (∀ a, left_over s a ↔ left_over s' a) →
  objs s = objs s' → alive s = alive s' → nobj s = nobj s' → nbin s = nbin s' →
  interchangeable s s'.
Proof.
  intros [l Hr] [l' Hr'] H1 H2 H3 H4 H5 H6 H7 H8 H9.
  destruct (reach_Inv E any_op s (ex_intro _ l Hr)) as [I Hst]. destruct (reach_Inv E' any_op s' (ex_intro _ l' Hr')) as [I' Hst'].
  destruct (history_sound E l s Hr) as (A & _ & H). destruct (history_sound E' l' s' Hr') as (A' & _ & H').
  eapply (like_interchangeable s A s' A'); [done..|]. apply req_ext.
  - intros o. by rewrite (sh_art _ _ H), (sh_art _ _ H').
  - intros o. by rewrite (sh_state _ _ H), (sh_state _ _ H').
  - intros o. by rewrite (sh_known _ _ H), (sh_known _ _ H').
  - intros u w. by rewrite (sh_deps _ _ H), (sh_deps _ _ H').
  - intros a. rewrite (sh_stray _ _ H), (sh_stray _ _ H'). symmetry. apply H5.
  - by rewrite (sh_who _ _ H), (sh_who _ _ H').
  - by rewrite (sh_live _ _ H), (sh_live _ _ H').
  - by rewrite (sh_nobj _ _ H), (sh_nobj _ _ H').
  - by rewrite (sh_nbin _ _ H), (sh_nbin _ _ H').
Qed.
Print Assumptions C46_observables.

(** ** Laws

    [does E s l s'] (RefLaws.v): the calls [l], first call first, all return and
    lead from [s] to [s'].  [l1 ~ l2]: they lead to interchangeable caches. *)
Definition law (l1 l2 : list op) : Prop :=
  ∀ E s s1 s2, reachable E s → does E s l1 s1 → does E s l2 s2 → interchangeable s1 s2.
Infix "~" := law (at level 70).

Ltac law L := intros E s s1 s2 Hr; apply (law_holds E (λ _, True)); [intros A A1 A2 _; by eapply L|done|done].

(** Invalidating, and purging, twice is as good as once, and the order does not matter. *)
Theorem C46_invalidate o w :
  [OInvalidate o] ~ [OInvalidate o; OInvalidate o] ∧ [OInvalidate o; OInvalidate w] ~ [OInvalidate w; OInvalidate o].
Proof. split; [law l_invalidate_idem|law l_invalidate_comm]. Qed.
Print Assumptions C46_invalidate.

Theorem C46_purge o w :
  [OPurge o] ~ [OPurge o; OPurge o] ∧ [OPurge o; OPurge w] ~ [OPurge w; OPurge o] ∧
  [OPurge o] ~ [OInvalidate o; OPurge o] ∧ [OPurge o] ~ [OPurge o; OInvalidate o] ∧
  [OInvalidate o; OPurge w] ~ [OPurge w; OInvalidate o].
Proof. split_and!; [law l_purge_idem|law l_purge_comm|law l_inv_purge|law l_purge_inv|law l_inv_purge_comm]. Qed.
Print Assumptions C46_purge.

(** [clear_all] makes all calls before it pointless that are no [get] or [get_mut]
    (their builders may create and drop builders), and make or drop no builder. *)
Theorem C46_clear :
  [OClearArtifacts] ~ [OClearArtifacts; OClearArtifacts] ∧
  ∀ l, (∀ x, x ∈ l → match x with OAlloc _ | ODrop _ | OGet _ _ | OGetMut _ _ => False | _ => True end) →
    [OClearAll] ~ l ++ [OClearAll].
Proof.
  split; [law l_clear_art_idem|]. intros l Hl.
  assert (Forall erased l) as Hf by (apply Forall_forall; intros x Hx; specialize (Hl x Hx); by destruct x).
  intros E s s1 s2 Hr; apply (law_holds E (λ _, True)); [intros A A1 A2 _; by apply l_erased|done|done].
Qed.
Print Assumptions C46_clear.

(** Looking changes nothing; [get] of a cached artifact neither. *)
Theorem C46_looks x :
  match x with OLookup _ _ | OGetDynState _ | OIsKnown _ | ONumKnown => True | _ => False end → [] ~ [x].
Proof. intros Hx. intros E s s1 s2 Hr; apply (law_holds E (λ _, True)); [intros A A1 A2 _; by apply l_looks|done|done]. Qed.
Print Assumptions C46_looks.
Theorem C46_get_cached E s h o s' :
  reachable E s → cached s o ≠ None → does E s [OGet h o] s' → interchangeable s s'.
Proof.
  intros Hr Hc Hd. eapply (law_holds E (λ A, r_art A !! o ≠ None) []); [|exact Hr| |done|exact Hd].
  - intros A A1 A2 HA. by apply l_get_hit.
  - intros A H. by rewrite (sh_art _ _ H).
Qed.
Print Assumptions C46_get_cached.

(** Garbage collection does nothing if somebody still holds every known builder. *)
Theorem C46_gc_nothing E s s' :
  reachable E s → (∀ o, knows s o → live s o) → does E s [OGc] s' → interchangeable s s'.
Proof.
  intros Hr Hk Hd. eapply (law_holds E (λ A, ∀ o, o ∈ r_known A → o ∈ r_live A) []); [|exact Hr| |done|exact Hd].
  - intros A A1 A2 HA. by apply l_gc_nothing.
  - intros A H o. rewrite (sh_known _ _ H), (sh_live _ _ H). apply Hk.
Qed.
Print Assumptions C46_gc_nothing.

(** Dynamic states: initialising is idempotent and implied by changing; two
    changes are one; changing includes invalidating. *)
Theorem C46_dyn_state o f g :
  [ODynState o] ~ [ODynState o; ODynState o] ∧ [ODynStateMut o f] ~ [ODynState o; ODynStateMut o f] ∧
  [ODynStateMut o (λ v, g (f v))] ~ [ODynStateMut o f; ODynStateMut o g] ∧
  [ODynStateMut o f] ~ [OInvalidate o; ODynStateMut o f] ∧ [ODynStateMut o f] ~ [ODynStateMut o f; OInvalidate o].
Proof. split_and!; [law l_dyn_state_idem|law l_dyn_state_mut|law l_mut_mut|law l_inv_mut|law l_mut_inv]. Qed.
Print Assumptions C46_dyn_state.

(** Changes to different builders commute. *)
Theorem C46_dyn_state_comm o w f g : o ≠ w →
  [ODynStateMut o f; ODynStateMut w g] ~ [ODynStateMut w g; ODynStateMut o f] ∧
  [OInvalidate w; ODynStateMut o f] ~ [ODynStateMut o f; OInvalidate w] ∧
  [OPurge w; ODynStateMut o f] ~ [ODynStateMut o f; OPurge w].
Proof.
  intros Hne. split_and!; intros E s s1 s2 Hr.
  - apply (law_holds E (λ _, True)); [intros A A1 A2 _; by eapply l_mut_comm|done|done].
  - apply (law_holds E r_distinct); [intros A A1 A2 HA; by eapply l_inv_mut_comm|done|]. intros A. by apply (distinct_shows E).
  - apply (law_holds E r_distinct); [intros A A1 A2 HA; by eapply l_purge_mut_comm|done|]. intros A. by apply (distinct_shows E).
Qed.
Print Assumptions C46_dyn_state_comm.

(** Dropping a builder commutes with these. *)
Theorem C46_drop o x :
  match x with OInvalidate _ | OPurge _ | ODynState _ | ODynStateMut _ _ | OClearArtifacts | OClearAll => True | _ => False end →
  [ODrop o; x] ~ [x; ODrop o].
Proof. intros Hx. intros E s s1 s2 Hr; apply (law_holds E (λ _, True)); [intros A A1 A2 _; by apply l_drop_comm|done|done]. Qed.
Print Assumptions C46_drop.

(** Two writes through [lookup_mut] are one; invalidating undoes them. *)
Theorem C46_lookup_mut o f g :
  [OLookupMut o (λ v, g (f v))] ~ [OLookupMut o f; OLookupMut o g] ∧
  [OInvalidate o] ~ [OLookupMut o f; OInvalidate o].
Proof. split; [law l_lookup_mut_twice|law l_lookup_mut_then]. Qed.
Print Assumptions C46_lookup_mut.

(** Not vacuous: on the diamond, invalidating the leaf and then a middle builder,
    or the other way round, both return; the caches differ from the one before. *)
Fixpoint does_b (E : env) (n : nat) (s : st) (l : list op) : option st :=
  match l with [] => Some s | x :: l => match step E n x s with Done _ s1 => does_b E n s1 l | _ => None end end.
Lemma does_b_does E n l s s' : does_b E n s l = Some s' → does E s l s'.
Proof.
  revert s. induction l as [|x l IH]; intros s; cbn; [congruence|]. destruct (step E n x s) as [r s1|? ?| |] eqn:Hs; try done.
  intros H. exists n, r, s1. split; [done|]. by apply IH.
Qed.
Definition got (o : option st) : st := match o with Some s => s | None => init_st end.
Definition is_got (o : option st) : bool := match o with Some _ => true | None => false end.
Lemma does_got E n l s : is_got (does_b E n s l) = true → does E s l (got (does_b E n s l)).
Proof. intros H. apply (does_b_does E n). by destruct (does_b E n s l). Qed.

Lemma does_reachable E s l s' : reachable E s → does E s l s' → reachable E s'.
Proof.
  revert s. induction l as [|x l IH]; intros s Hr; cbn; [by intros ->|]. intros (n & r & s1 & Hs & Hd). apply (IH s1); [|done].
  destruct Hr as [h Hr]. exists ((x, Returned r) :: h). by eapply runs_done.
Qed.
Definition has (s : st) (o : obj) : bool := match cached s o with Some _ => true | None => false end.
Definition val_is (s : st) (o : obj) (v : val) : bool := match cached s o with Some b => bool_decide (bin_val b = v) | None => false end.

Corollary C46_applies :
  (∃ s1 s2, does env_s s_diamond [OInvalidate 0; OPurge 1] s1 ∧ does env_s s_diamond [OPurge 1; OInvalidate 0] s2 ∧
     interchangeable s1 s2 ∧ ¬ interchangeable s_diamond s1 ∧ cached s1 4 ≠ None) ∧
  (∃ s1 s2, does env_b b_diamond [OLookupMut 3 VSome; OLookupMut 3 VSome] s1 ∧ does env_b b_diamond [OLookupMut 3 (λ v, VSome (VSome v))] s2 ∧
     interchangeable s2 s1 ∧ cached s1 3 ≠ cached b_diamond 3).
Proof.
  split.
  - assert (∃ s1, does env_s s_diamond [OInvalidate 0; OPurge 1] s1 ∧ has s1 3 = false ∧ has s1 4 = true) as (s1 & D1 & H3 & H4).
    { exists (got (does_b env_s 20 s_diamond [OInvalidate 0; OPurge 1])). split; [apply does_got|split]; vm_compute; reflexivity. }
    assert (∃ s2, does env_s s_diamond [OPurge 1; OInvalidate 0] s2) as (s2 & D2).
    { exists (got (does_b env_s 20 s_diamond [OPurge 1; OInvalidate 0])). apply does_got. vm_compute. reflexivity. }
    exists s1, s2. split; [exact D1|]. split; [exact D2|]. split; [|split].
    + destruct (C46_purge 0 1) as (_ & _ & _ & _ & HL). exact (HL env_s s_diamond s1 s2 diamond_reachable D1 D2).
    + intros HI. pose proof (does_reachable _ _ _ _ diamond_reachable D1) as R1.
      assert (live s_diamond 3) as L3 by (apply live_b_spec; vm_compute; reflexivity).
      destruct (C46_observed env_s env_s s_diamond s1 3 diamond_reachable R1 HI L3) as (_ & Hc & _).
      assert (has s_diamond 3 = true) as Hd by (vm_compute; reflexivity). unfold has in *. rewrite Hc in Hd. rewrite H3 in Hd. discriminate Hd.
    + unfold has in H4. destruct (cached s1 4); [discriminate|discriminate H4].
  - assert (∃ s1, does env_b b_diamond [OLookupMut 3 VSome; OLookupMut 3 VSome] s1 ∧
      val_is s1 3 (VSome (VSome (VPair (VSome (VNum 7)) (VSome (VNum 7))))) = true) as (s1 & D1 & H1).
    { exists (got (does_b env_b 20 b_diamond [OLookupMut 3 VSome; OLookupMut 3 VSome])). split; [apply does_got|]; vm_compute; reflexivity. }
    assert (∃ s2, does env_b b_diamond [OLookupMut 3 (λ v, VSome (VSome v))] s2) as (s2 & D2).
    { exists (got (does_b env_b 20 b_diamond [OLookupMut 3 (λ v, VSome (VSome v))])). apply does_got; vm_compute; reflexivity. }
    exists s1, s2. split; [exact D1|]. split; [exact D2|]. split.
    + destruct (C46_lookup_mut 3 VSome VSome) as (HL & _). exact (HL env_b b_diamond s2 s1 b_diamond_reachable D2 D1).
    + assert (val_is b_diamond 3 (VSome (VSome (VPair (VSome (VNum 7)) (VSome (VNum 7))))) = false) as H2 by (vm_compute; reflexivity).
      intros Hc. unfold val_is in *. rewrite Hc in H1. rewrite H1 in H2. discriminate H2.
Qed.
