(** Properties: who owns a builder, and what repeated garbage collection gets rid
    of (C50).  Vocabulary: Spec.v; [held], [settled], [rounds], [rooted], [blocks]
    and [doomed]: Owner.v. *)
From Verif Require Import OwnerFacts Demo.
From stdpp Require Import relations.

(** ** What is left after calling [garbage_collection] often enough

    All that is not doomed, unchanged; and of the builders those held by the user or
    by the values left. *)
Theorem C50_reclaim E K R s s' n :
  reachable E s → older K → settled K R s → rounds E K R n s s' → number_of_known (ch s) ≤ n →
  (∀ w, knows s' w ↔ knows s w ∧ ¬ doomed K R s w) ∧
  (∀ w, knows s' w → cached s' w = cached s w ∧ state_of s' w = state_of s w) ∧
  (∀ u w, depends s' u w ↔ depends s u w ∧ ¬ doomed K R s u ∧ ¬ doomed K R s w) ∧
  (∀ w, live s' w ↔ ∃ x, (x ∈ R ∨ ∃ v, knows s v ∧ ¬ doomed K R s v ∧ holds s v x) ∧ rtc (λ x y, y ∈ K x) x w).
Proof.
  intros [l Hr] Hold Hset Hrs Hn. destruct (reach_Inv E any_op s (ex_intro _ l Hr)) as [I Hst].
  destruct (rounds_is E K R n s s' Hold I Hst Hset Hrs) as [Ho Hall]. exact (reclaimed K R s s' Hold Ho (Hall Hn)).
Qed.
Print Assumptions C50_reclaim.

(** However often it is called, what is not doomed stays; and calling it again makes
    no difference to what is doomed. *)
Theorem C50_safe E K R s s' n w :
  reachable E s → older K → settled K R s → rounds E K R n s s' →
  (doomed K R s' w ↔ doomed K R s w) ∧
  (knows s w → ¬ doomed K R s w → knows s' w ∧ cached s' w = cached s w ∧ state_of s' w = state_of s w) ∧
  (rooted K R w → live s' w).
Proof.
  intros [l Hr] Hold Hset Hrs. destruct (reach_Inv E any_op s (ex_intro _ l Hr)) as [I Hst].
  destruct (rounds_is E K R n s s' Hold I Hst Hset Hrs) as [Ho _]. split_and!; [apply Ho|..].
  - intros Hk Hd. destruct (rs_more _ _ _ _ Ho w Hk) as [Hk'|]; [|done]. split; [done|]. by apply (rs_kept _ _ _ _ Ho).
  - intros (x & Hx & Hp). by apply (held_path K R s' x w (rs_settled _ _ _ _ Ho)); [left|].
Qed.
Print Assumptions C50_safe.

(** It can be called that often: if nothing happened that breaks
    [garbage_collection] (C09), it does not panic in any of the rounds, and the
    builders no longer held can be dropped. *)
Theorem C50_possible E K R s n :
  reach_by E gc_friendly s → older K → settled K R s → ∃ s', rounds E K R n s s'.
Proof.
  intros Hr Hold Hset. pose proof (friendly_lk E s Hr) as Hlk.
  destruct Hr as [l Hr]. destruct (reach_Inv E gc_friendly s (ex_intro _ l Hr)) as [I Hst].
  by apply rounds_exists.
Qed.
Print Assumptions C50_possible.

(** The user may drop anything at any time: dropping ends in a settled state. *)
Theorem C50_settles E K R R' s :
  reachable E s → settled K R s → R' ⊆ R →
  ∃ s', settles E K R' s s' ∧ settled K R' s' ∧ ch s' = ch s ∧ ∀ w, live s' w → live s w.
Proof.
  intros [l Hr] Hset Hsub. destruct (reach_Inv E any_op s (ex_intro _ l Hr)) as [I Hst].
  destruct (settles_exists E K R' s I Hst) as [s' Hs'].
  { intros w Hw. apply Hset. destruct Hw as [Hw|[Hw|Hw]]; [left; by apply Hsub|by right; left|by right; right]. }
  exists s'. destruct (settles_ok E K R' s s' Hs' I Hst) as (_ & _ & Hset' & X & -> & HX). split_and!; try done.
Qed.
Print Assumptions C50_settles.

(** ** What is doomed: all that does not hang on the user or on a cycle *)
Theorem C50_retained K R s (X : obj → Prop) w :
  (∀ x, X x → rooted K R x ∨ ∃ v, X v ∧ blocks K s v x) → X w → ¬ doomed K R s w.
Proof.
  intros HX Hw Hd. revert Hw. induction Hd as [w Hn _ IH]. intros Hw.
  destruct (HX w Hw) as [?|(v & Hv & Hb)]; [done|]. by eapply IH.
Qed.
Print Assumptions C50_retained.

(** So if no builder blocks itself, directly or through others, only the builders the
    user holds and what those are made of stay. *)
Theorem C50_acyclic E K R s s' n w :
  reachable E s → older K → settled K R s → rounds E K R n s s' → number_of_known (ch s) ≤ n →
  (∀ x, ¬ tc (blocks K s) x x) → knows s w →
  ((∃ v, rooted K R v ∧ rtc (blocks K s) v w) → knows s' w) ∧
  (¬ (∃ v, rooted K R v ∧ rtc (blocks K s) v w) → ¬ knows s' w).
Proof.
  intros Hr Hold Hset Hrs Hn Hac Hk. pose proof (C50_reclaim E K R s s' n Hr Hold Hset Hrs Hn) as (Hkn & _).
  split.
  - intros (v & Hv & Hp). apply Hkn. split; [done|].
    apply (C50_retained K R s (λ x, ∃ v, rooted K R v ∧ rtc (blocks K s) v x)); [|eauto].
    intros x (v' & Hv' & Hp'). destruct (rtc_inv_r _ _ Hp') as [<-|(y & Hy & Hb)]; [by left|right; eauto].
  - intros Hno Hk'. apply Hkn in Hk' as [_ Hnd]. apply Hnd. destruct Hr as [l Hr].
    destruct (reach_Inv E any_op s (ex_intro _ l Hr)) as [I _]. destruct (known_set s I) as (X & HX & _).
    clear - Hac Hno HX Hk.
    (* [l]: what was passed through on the way up to [w] *)
    assert (∀ m (l : list obj) w, (∀ x, x ∈ l → x ∈ X ∧ tc (blocks K s) w x) → NoDup l → knows s w →
      size X ≤ length l + m → ¬ (∃ v, rooted K R v ∧ rtc (blocks K s) v w) → doomed K R s w) as Hgen.
    { clear w Hk Hno. induction m as [|m IH]; intros l w Hl Hnd Hk Hsz Hno.
      - exfalso. assert (w ∉ l) as Hw. { intros Hw. by apply Hl in Hw as [_ ?%Hac]. }
        assert (NoDup (w :: l)) as Hnd2 by (by constructor).
        assert (size (list_to_set (w :: l) : gset obj) ≤ size X) as Hle.
        { apply subseteq_size. intros x. rewrite elem_of_list_to_set, elem_of_cons. intros [-> |Hx]; [by apply HX|by apply Hl]. }
        rewrite size_list_to_set in Hle by done. cbn in Hle. lia.
      - constructor. { intros Hw. apply Hno. exists w. split; [done|apply rtc_refl]. }
        intros v Hv. apply (IH (w :: l)).
        + intros x [-> |Hx]%elem_of_cons; [split; [by apply HX|by constructor]|].
          destruct (Hl x Hx) as [? Ht]. split; [done|]. by eapply tc_l.
        + constructor; [|done]. intros Hw. by apply Hl in Hw as [_ ?%Hac].
        + by eapply blocks_knows.
        + cbn. lia.
        + intros (y & Hy & Hp). apply Hno. exists y. split; [done|]. by eapply rtc_r. }
    apply (Hgen (size X) [] w); [by intros x Hx%elem_of_nil|constructor|done|cbn; lia|done].
Qed.
Print Assumptions C50_acyclic.

(** In particular, if the user holds nothing any more, nothing at all is left:
    [garbage_collection] gives everything back.  A way to ensure it: artifacts and
    states hold only blueprints of builders made before their own one. *)
Theorem C50_all E K s s' n :
  reachable E s → older K → settled K ∅ s → rounds E K ∅ n s s' → number_of_known (ch s) ≤ n →
  (∀ x, ¬ tc (blocks K s) x x) →
  ∀ w, ¬ knows s' w ∧ ¬ live s' w.
Proof.
  intros Hr Hold Hset Hrs Hn Hac. pose proof (C50_reclaim E K ∅ s s' n Hr Hold Hset Hrs Hn) as (Hkn & _ & _ & Hl).
  assert (∀ w, ¬ knows s' w) as Hno.
  { intros w Hk. apply Hkn in Hk as Hk2. destruct Hk2 as [Hk2 _].
    apply (C50_acyclic E K ∅ s s' n w Hr Hold Hset Hrs Hn Hac Hk2); [|done].
    intros (v & (x & Hx & _) & _). by apply elem_of_empty in Hx. }
  intros w. split; [done|]. rewrite Hl. intros (x & [Hx|(v & Hv & Hd & _)] & _); [by apply elem_of_empty in Hx|].
  apply (Hno v). by apply Hkn.
Qed.
Print Assumptions C50_all.

Theorem C50_older K s :
  older K → (∀ v w, depends s v w → (w < v)%N) → (∀ v w, holds s v w → (w < v)%N) →
  ∀ x, ¬ tc (blocks K s) x x.
Proof.
  intros Hold Hd Hh x Hx.
  assert (∀ y z, rtc (λ x y, y ∈ K x) y z → (z ≤ y)%N) as Hle.
  { induction 1 as [|a b c Hb _ IH]; [lia|]. apply Hold in Hb. lia. }
  assert (∀ v w, tc (blocks K s) v w → (w < v)%N) as Hlt.
  { assert (∀ v w, blocks K s v w → (w < v)%N) as H1.
    { intros v w [H|(y & Hy & Hp)]; [by apply Hd|]. apply Hh in Hy. apply Hle in Hp. lia. }
    induction 1 as [v w H|v w z H _ IH]; [by apply H1|]. apply H1 in H. lia. }
  apply Hlt in Hx. lia.
Qed.
Print Assumptions C50_older.

(** ** The leak: an artifact or dynamic state which holds its own builder stays until
    it is invalidated or cleared, whatever the user drops and however often
    [garbage_collection] is called. *)
Theorem C50_leak E K R s s' n w :
  reachable E s → older K → settled K R s → rounds E K R n s s' →
  tc (blocks K s) w w → knows s' w ∧ cached s' w = cached s w ∧ state_of s' w = state_of s w.
Proof.
  intros Hr Hold Hset Hrs Hc. apply (C50_safe E K R s s' n w Hr Hold Hset Hrs).
  - assert (∀ v x, tc (blocks K s) v x → knows s v) as Hk.
    { induction 1 as [v x H|v x y H _ _]; by eapply blocks_knows. }
    by eapply Hk.
  - apply (C50_retained K R s (λ x, tc (blocks K s) x x)); [|done]. intros x Hx. right.
    assert (∀ a b, tc (blocks K s) a b → ∃ y, rtc (blocks K s) a y ∧ blocks K s y b) as Hlast.
    { induction 1 as [a b H|a b c H _ (y & Hy & Hb)]; [exists a; split; [apply rtc_refl|done]|].
      exists y. split; [by eapply rtc_l|done]. }
    destruct (Hlast x x Hx) as (y & Hy & Hb). exists y. split; [|done]. eapply tc_rtc_r; [by constructor|done].
Qed.
Print Assumptions C50_leak.

(** ** Examples *)
Definition held_set (K : obj → gset obj) (R : gset obj) (s : st) : gset obj :=
  R ∪ ⋃ ((λ e : addr * obj,
           match cached s e.2 with Some b => mentions (bin_val b) | None => ∅ end ∪
           match state_of s e.2 with Some x => mentions x | None => ∅ end) <$> map_to_list (known (ch s)))
    ∪ ⋃ (K <$> elements (alive s)).
Lemma settled_b K R s : bool_decide (alive s = held_set K R s) = true → settled K R s.
Proof.
  intros Heq%bool_decide_eq_true_1 w. unfold live. rewrite Heq at 1. unfold held_set, held.
  rewrite !elem_of_union, !elem_of_union_list. split.
  - intros [[?|(X & (e & -> & He)%elem_of_list_fmap & Hw)]|(X & (u & -> & Hu)%elem_of_list_fmap & Hw)]; [by left|..].
    + right. left. exists e.2. apply elem_of_union in Hw as [Hw|Hw]; [left|right].
      * destruct (cached s e.2) as [b|]; [eauto|by apply elem_of_empty in Hw].
      * destruct (state_of s e.2) as [b|]; [eauto|by apply elem_of_empty in Hw].
    + right. right. exists u. split; [exact (proj1 (elem_of_elements (alive s) u) Hu)|done].
  - intros [?|[(v & Hv)|(u & Hu & Hw)]]; [by left; left|left; right|right].
    + apply holds_knows in Hv as Hk. destruct Hk as (d & a & _ & Hk).
      eexists. split; [apply elem_of_list_fmap; exists (a, v); split; [done|by apply elem_of_map_to_list]|].
      cbn. apply elem_of_union. destruct Hv as [(b & -> & Hb)|(b & -> & Hb)]; [by left|by right].
    + exists (K u). split; [|done]. apply elem_of_list_fmap. exists u. split; [done|by apply elem_of_elements].
Qed.

(** Builder 0 is a leaf.  The artifact of 1 is a blueprint of 0, without having
    resolved it, that of 2 contains that of 1.  All have been got, then the user
    dropped everything.  The cache still holds 0, through the artifacts of 1 and 2. *)
Definition d_gives (w : obj) : bdef := BDef 6 0 (Some VUnit) (PNewBin (VObj w) (λ b, PRet (Ok b))).
Definition k_chain (u : obj) : gset obj := match u with 1%N => {[0%N]} | 2%N => {[1%N]} | _ => ∅ end.
Definition chain_ops : list op :=
  [OAlloc (d_leaf (VNum 7)); OAlloc (d_gives 0); OAlloc (d_mid 1); OGet HBin 0; OGet HBin 2; ODrop 2; ODrop 1]%N.
Definition s_chain := after env_s 10 chain_ops.
Lemma chain_friendly : reach_by env_s gc_friendly s_chain.
Proof. apply after_by. unfold chain_ops. by repeat constructor. Qed.
Lemma k_chain_older : older k_chain.
Proof.
  intros u w. unfold k_chain. destruct u as [|[[?|?|]|[?|?|]|]]; try (by intros ?%elem_of_empty);
  intros ->%elem_of_singleton; lia.
Qed.
Lemma chain_settled : settled k_chain ∅ s_chain.
Proof. apply settled_b. vm_compute. reflexivity. Qed.
Definition holds_b (s : st) (v w : obj) : bool := bool_decide (holds s v w).

Lemma in_3 (v : N) : v = 0%N ∨ v = 1%N ∨ v = 2%N → In v [0; 1; 2]%N.
Proof. cbn. intuition. Qed.

Example C50_applies :
  reachable env_s s_chain ∧ older k_chain ∧ settled k_chain ∅ s_chain ∧ number_of_known (ch s_chain) = 3 ∧
  live s_chain 0 ∧ ¬ live s_chain 1 ∧ ¬ live s_chain 2 ∧ holds s_chain 1 0 ∧ depends s_chain 2 1 ∧
  (∀ x, ¬ tc (blocks k_chain s_chain) x x) ∧
  ∃ s', rounds env_s k_chain ∅ 3 s_chain s' ∧ ∀ w, ¬ knows s' w ∧ ¬ live s' w.
Proof.
  assert (∀ x, ¬ tc (blocks k_chain s_chain) x x) as Hac.
  { assert (∀ v, knows s_chain v → v = 0%N ∨ v = 1%N ∨ v = 2%N) as Hkn.
    { intros v (d & a & _ & Hk). apply elem_of_map_to_list in Hk.
      assert (forallb (λ e : addr * obj, (e.2 <? 3)%N) (map_to_list (known (ch s_chain))) = true) as Hf by (vm_compute; reflexivity).
      rewrite forallb_forall in Hf. specialize (Hf (a, v) (proj1 (elem_of_list_In _ _) Hk)). apply N.ltb_lt in Hf. cbn in Hf. change (v < 3)%N in Hf. lia. }
    apply C50_older; [apply k_chain_older|..].
    - intros v w Hd. apply depends_knows in Hd as Hk. destruct Hk as [Hv Hw]. apply depends_b_spec in Hd.
      assert (forallb (λ v, forallb (λ w, implb (depends_b s_chain v w) (w <? v)%N) [0; 1; 2]%N) [0; 1; 2]%N = true) as Hf by (vm_compute; reflexivity).
      rewrite forallb_forall in Hf. specialize (Hf v (in_3 v (Hkn v Hv))).
      rewrite forallb_forall in Hf. specialize (Hf w (in_3 w (Hkn w Hw))). rewrite Hd in Hf. by apply N.ltb_lt in Hf.
    - intros v w Hh. apply holds_knows in Hh as Hv.
      assert (forallb (λ v, bool_decide (set_Forall (λ w, (w < v)%N) (
        match cached s_chain v with Some b => mentions (bin_val b) | None => ∅ end ∪
        match state_of s_chain v with Some x => mentions x | None => ∅ end))) [0; 1; 2]%N = true) as Hf by (vm_compute; reflexivity).
      rewrite forallb_forall in Hf. specialize (Hf v (in_3 v (Hkn v Hv))). apply bool_decide_eq_true_1 in Hf.
      apply Hf. apply elem_of_union. destruct Hh as [(b & -> & Hb)|(b & -> & Hb)]; [by left|by right]. }
  assert (reachable env_s s_chain) as Hr by apply after_reachable.
  split_and!; [done|apply k_chain_older|apply chain_settled|vm_compute; reflexivity|..].
  - apply live_b_spec. vm_compute. reflexivity.
  - apply not_live_b. vm_compute. reflexivity.
  - apply not_live_b. vm_compute. reflexivity.
  - apply (bool_decide_eq_true_1 (holds s_chain 1 0)). vm_compute. reflexivity.
  - apply depends_b_spec. vm_compute. reflexivity.
  - done.
  - destruct (C50_possible env_s k_chain ∅ s_chain 3 chain_friendly k_chain_older chain_settled) as [s' Hs'].
    exists s'. split; [done|].
    assert (number_of_known (ch s_chain) ≤ 3) as Hn by (apply Nat.leb_le; vm_compute; reflexivity).
    exact (C50_all env_s k_chain s_chain s' 3 Hr k_chain_older chain_settled Hs' Hn Hac).
Qed.

(** The dynamic state of 0 is set to its own blueprint.  It never goes away. *)
Definition knot_ops : list op := [OAlloc (d_leaf (VNum 7)); OGet HBin 0; ODynStateMut 0 (λ _, VObj 0)]%N.
Definition s_knot := after env_s 10 knot_ops.
Example C50_leaks :
  settled (λ _, ∅) ∅ s_knot ∧ ∀ n, ∃ s', rounds env_s (λ _, ∅) ∅ n s_knot s' ∧ knows s' 0 ∧ live s' 0 ∧ state_of s' 0 = Some (VObj 0).
Proof.
  assert (reach_by env_s gc_friendly s_knot) as Hf by (apply after_by; unfold knot_ops; by repeat constructor).
  assert (settled (λ _, ∅) ∅ s_knot) as Hset by (apply settled_b; vm_compute; reflexivity).
  assert (older (λ _, ∅)) as Hold by (intros u w H; by apply elem_of_empty in H).
  assert (reachable env_s s_knot) as Hr by apply after_reachable.
  split; [done|]. intros n. destruct (C50_possible env_s (λ _, ∅) ∅ s_knot n Hf Hold Hset) as [s' Hs'].
  exists s'. split; [done|].
  assert (holds s_knot 0 0) as Hh. { apply (bool_decide_eq_true_1 (holds s_knot 0 0)). vm_compute. reflexivity. }
  destruct (C50_leak env_s (λ _, ∅) ∅ s_knot s' n 0%N Hr Hold Hset Hs') as (Hk & _ & Hst).
  { constructor. right. exists 0%N. split; [done|apply rtc_refl]. }
  assert (state_of s' 0 = Some (VObj 0)) as Hst'. { rewrite Hst. vm_compute. reflexivity. }
  split_and!; [done| |done].
  destruct Hr as [l Hr]. destruct (reach_Inv env_s any_op s_knot (ex_intro _ l Hr)) as [I Hstk].
  destruct (rounds_is env_s (λ _, ∅) ∅ n s_knot s' Hold I Hstk Hset Hs') as [Ho _].
  apply (rs_settled _ _ _ _ Ho). right. left. exists 0%N. right. exists (VObj 0). split; [done|]. cbn. by apply elem_of_singleton.
Qed.
