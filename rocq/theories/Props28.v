(** Properties: which builders are alive, and where a new one can be, is what the
    counts of strong and weak references make of it (C61).
    Histories of a cache [oruns]: Owned.v; memory and its steps [wreach], [wstep]:
    Rc.v; [mirrors], [in_place]: Memory.v. *)
From Verif Require Import MemRuns Props25 Demo RcFacts Props7 Memory.
From stdpp Require Import relations.

Section C61.
Context (E : env) (fields : bdef → gset obj) (keep : prog → gset obj → gset obj) (pk : ptrkind).
Notation settled_down := (settled_down fields).
Notation oruns := (oruns E fields keep).
Notation step_o := (step_o E fields keep).
Notation may := (may E fields keep).
Notation mirrors := (mirrors fields pk).
Notation mir := (mir fields pk).

Lemma weak_at (s : st) A w h : wok w → shows s A → blks fields pk A (mm w) → TPtr h ∈ pool w → ∃ d, objs s !! h_id h = Some (d, h_ptr h).
Proof.
  intros [Hok _] H Hb Hh. destruct (ok_hnd _ _ Hok h) as (b & Hp & Hi & _).
  { apply refs_in. eapply held_in; [exact Hh|left]. }
  destruct (bl_blk _ _ _ _ Hb _ _ Hp) as (d & Hd & _). exists d. rewrite <- (sh_who _ _ H), <- Hi. exact Hd.
Qed.

Lemma mirrors_mir U s A w : Inv s → wok w → shows s A → mirrors U s w ↔ mir U A w.
Proof.
  intros I Hw H. split.
  - intros [N O L K B]. assert (blks fields pk A (mm w)) as HB.
    { split; [by rewrite N, (sh_nobj _ _ H)|]. intros p b Hp. destruct (B p b Hp) as (d & Hd & X). exists d. by rewrite (sh_who _ _ H). }
    split; [done|exact O|..].
    + intros o. rewrite (r_stored_holds s A o H). exact (L o).
    + intros o. rewrite (sh_known _ _ H). split.
      * intros (h & Hh & <-). destruct (weak_at s A w h Hw H HB Hh) as (d & Hd). exists d, (h_ptr h). split; [exact Hd|]. apply K. by exists h.
      * intros (d & a & Hd & Hk). apply K in Hk as (h & Hh & _ & Hi). by exists h.
  - intros [B O L K]. split; [by rewrite (bl_next _ _ _ _ B), (sh_nobj _ _ H)|exact O|..].
    + intros o. rewrite <- (r_stored_holds s A o H). exact (L o).
    + intros a o. split.
      * intros (h & Hh & <- & <-). destruct (weak_at s A w h Hw H B Hh) as (d & Hd).
        assert (h_id h ∈ r_known A) as Hk by (apply K; by exists h). apply (sh_known _ _ H) in Hk as (d' & a' & Hd' & Hk). unfold at_addr in Hd'. congruence.
      * intros Hk. destruct (ci_known_obj _ _ (i_c _ I) _ _ Hk) as (d & Hd).
        assert (weak_of w o) as (h & Hh & <-) by (apply K, (sh_known _ _ H); by exists d, a).
        destruct (weak_at s A w h Hw H B Hh) as (d' & Hd'). exists h. split; [done|]. split; [congruence|done].
    + intros p b Hp. destruct (bl_blk _ _ _ _ B p b Hp) as (d & Hd & X). exists d. by rewrite <- (sh_who _ _ H).
Qed.

(** ** Every history happens on such a memory *)
Theorem C61_start : mirrors ∅ init_st init_world ∧ wreach init_world.
Proof.
  split; [|apply rtc_refl]. split.
  - done.
  - intros x Hx. by apply elem_of_nil in Hx.
  - intros o. split; [intros (h & Hh & _); by apply elem_of_nil in Hh|]. intros [Ho|(v & [(b & Hb & _)|(x & Hx & _)])]; [by apply elem_of_empty in Ho|..].
    + unfold cached in Hb. cbn in Hb. by rewrite lookup_empty in Hb.
    + unfold state_of in Hx. cbn in Hx. by rewrite lookup_empty in Hx.
  - intros a o. split; [intros (h & Hh & _); by apply elem_of_nil in Hh|]. cbn. by rewrite lookup_empty.
  - intros p b Hb. cbn in Hb. by rewrite lookup_empty in Hb.
Qed.

(** Whatever the user, holding [U], does, the memory can take steps to one for what
    is then held: taking references through those there are, making a new builder at
    a free address, dropping references. *)
Theorem C61_call U l s n x r s1 s' w :
  pk ≠ PBox → oruns U l s → wreach w → mirrors U s w →
  may U x → step_o n U x s = Done r s1 → settled_down (U ∪ mentions_out r) s1 = Some s' →
  ∃ w', rtc wstep w w' ∧ mirrors (U ∪ mentions_out r) s' w'.
Proof.
  intros Hpk Hr Hw M Hm Hs Hd. destruct (hist_o _ _ _ U l s Hr) as (I & Hst & A0 & A & HA & R & K & H & Hf & Hg & Ht).
  apply (mirrors_mir U s A w I (wreach_ok w Hw) H) in M.
  pose proof (call_o_sound _ _ _ U x A A0 s n I Hst H Hf Hg Hm R K) as X. rewrite Hs in X. destruct X as (I1 & Hst1 & A1 & Hc & H1 & Hf1 & Hg1).
  pose proof (call_o_sim E fields keep pk Hpk U x A s n I Hst H Hf Hg Hm) as Y. rewrite Hs in Y. specialize (Y A1 H1).
  destruct (settled_hist E fields keep _ s1 A1 I1 Hst1 H1 Hf1 Hg1) as (s2 & A' & Hs2 & I2 & Hst2 & R2 & K2 & H2 & Hf2 & Hg2 & Ht2).
  rewrite Hd in Hs2. injection Hs2 as <-.
  pose proof (sim_trans _ _ _ _ _ _ _ _ Y (sim_settle fields pk Hpk _ _ s1 s' A1 A' (reflexivity _) H1 H2 K2 Hd)) as Z.
  destruct (Z w Hw M) as (w' & Hw' & M'). exists w'. split; [done|].
  apply (mirrors_mir _ s' A' w' I2); [|done|done]. apply wreach_ok. unfold wreach in *. by etrans.
Qed.
(** Also a call that ends with a panic the user catches, *)
Theorem C61_panic U l s n x k s1 s' w :
  pk ≠ PBox → oruns U l s → wreach w → mirrors U s w →
  may U x → step_o n U x s = Panic k s1 → resumable k = true → settled_down U (unwound s1) = Some s' →
  ∃ w', rtc wstep w w' ∧ mirrors U s' w'.
Proof.
  intros Hpk Hr Hw M Hm Hs Hk Hd. destruct (hist_o _ _ _ U l s Hr) as (I & Hst & A0 & A & HA & R & K & H & Hf & Hg & Ht).
  apply (mirrors_mir U s A w I (wreach_ok w Hw) H) in M. assert (k ≠ PkCounterpart) as Hne by (by intros ->).
  pose proof (call_o_sound _ _ _ U x A A0 s n I Hst H Hf Hg Hm R K) as X. rewrite Hs in X. destruct X as (A1 & Hc & X). destruct (X Hne) as (I1 & H1 & Hf1 & Hg1).
  pose proof (call_o_sim E fields keep pk Hpk U x A s n I Hst H Hf Hg Hm) as Y. rewrite Hs in Y. specialize (Y Hne A1 H1).
  destruct (settled_hist E fields keep _ (unwound s1) A1 I1 eq_refl (shows_unwind _ _ H1) Hf1 Hg1) as (s2 & A' & Hs2 & I2 & Hst2 & R2 & K2 & H2 & Hf2 & Hg2 & Ht2).
  rewrite Hd in Hs2. injection Hs2 as <-.
  pose proof (sim_trans _ _ _ _ _ _ _ _ Y (sim_settle fields pk Hpk _ _ (unwound s1) s' A1 A' (reflexivity _) (shows_unwind _ _ H1) H2 K2 Hd)) as Z.
  destruct (Z w Hw M) as (w' & Hw' & M'). exists w'. split; [done|].
  apply (mirrors_mir _ s' A' w' I2); [|done|done]. apply wreach_ok. unfold wreach in *. by etrans.
Qed.
(** and dropping blueprints. *)
Theorem C61_release U U' l s s' w :
  pk ≠ PBox → oruns U l s → wreach w → mirrors U s w → U' ⊆ U → settled_down U' s = Some s' →
  ∃ w', rtc wstep w w' ∧ mirrors U' s' w'.
Proof.
  intros Hpk Hr Hw M HU Hd. destruct (hist_o _ _ _ U l s Hr) as (I & Hst & A0 & A & HA & R & K & H & Hf & Hg & Ht).
  apply (mirrors_mir U s A w I (wreach_ok w Hw) H) in M.
  destruct (settled_hist E fields keep U' s A I Hst H (firm_sub _ _ _ _ Hf HU) Hg) as (s2 & A' & Hs2 & I2 & Hst2 & R2 & K2 & H2 & Hf2 & Hg2 & Ht2).
  rewrite Hd in Hs2. injection Hs2 as <-.
  destruct (sim_settle fields pk Hpk U U' s s' A A' HU H H2 K2 Hd w Hw M) as (w' & Hw' & M'). exists w'. split; [done|].
  apply (mirrors_mir _ s' A' w' I2); [|done|done]. apply wreach_ok. unfold wreach in *. by etrans.
Qed.

Theorem C61_history U l s : pk ≠ PBox → oruns U l s → ∃ w, wreach w ∧ mirrors U s w.
Proof.
  intros Hpk Hr. induction Hr as [|U U' l s s' Hr IH HU Hs|U l s n x r s1 s' Hr IH Hm Hs Hd|U l s n x k s1 s' Hr IH Hm Hs Hk Hd].
  - exists init_world. split; apply C61_start.
  - destruct IH as (w & Hw & M). destruct (C61_release U U' l s s' w) as (w' & S & M'); [done..|]. exists w'. split; [|done]. unfold wreach in *. by etrans.
  - destruct IH as (w & Hw & M). destruct (C61_call U l s n x r s1 s' w) as (w' & S & M'); [done..|]. exists w'. split; [|done]. unfold wreach in *. by etrans.
  - destruct IH as (w & Hw & M). destruct (C61_panic U l s n x k s1 s' w) as (w' & S & M'); [done..|]. exists w'. split; [|done]. unfold wreach in *. by etrans.
Qed.

(** ** And the memory says what the history says *)

(** A builder is alive exactly if its strong count is not zero: it is there, at the
    address by which the cache knows it. *)
Theorem C61_live U l s w o p :
  oruns U l s → wreach w → mirrors U s w → in_place w o p ↔ live s o ∧ ∃ d, at_addr s o d p.
Proof.
  intros Hr Hw M. destruct (hist_o _ _ _ U l s Hr) as (I & Hst & A0 & A & HA & R & K & H & Hf & Hg & Ht).
  pose proof (wreach_ok w Hw) as Hok. pose proof (proj1 (mirrors_mir U s A w I Hok H) M) as M'. split.
  - intros (b & Hb & <- & Hs). split.
    + unfold live. rewrite <- (sh_live _ _ H). eapply reach_live; [exact Hf|]. by eapply from_memory.
    + destruct (mi_blk _ _ _ _ _ M p b Hb) as (d & Hd & _). by exists d.
  - intros [Hl (d & Hd)]. apply (C58_alive _ _ _ U l s o Hr) in Hl as (x & Hx & Hp).
    assert (reach fields U A o) as Hre.
    { exists x. split; [destruct Hx as [Hx|Hx]; [by left|right; by apply (r_stored_holds s A x H)]|].
      clear Hx. induction Hp as [x|x y z Hxy _ IH]; [apply rtc_refl|]. eapply rtc_l; [|by apply IH]. by apply (r_part_made fields s A x y H). }
    destruct (in_memory fields pk U A w o Hok (mir_loose _ _ _ _ _ M') Hre) as (h & Hi & _ & _ & _ & b & Hb & Hbi & Hs).
    destruct (mi_blk _ _ _ _ _ M _ b Hb) as (d' & Hd' & _). rewrite Hbi in Hd'. unfold at_addr in Hd. rewrite Hd in Hd'. injection Hd' as _ ->. by exists b.
Qed.

(** The memory at [a] is in use exactly if a live builder is there, or one that the
    cache knows: whatever address the allocator gives to a new builder, it is neither
    (which is what Build.v [alloc] takes for granted). *)
Theorem C61_free U l s w a :
  oruns U l s → wreach w → mirrors U s w →
  heap (mm w) !! a = None ↔ (∀ o d, live s o → ¬ at_addr s o d a) ∧ known (ch s) !! a = None.
Proof.
  intros Hr Hw M. destruct (hist_o _ _ _ U l s Hr) as (I & Hst & A0 & A & HA & R & K & H & Hf & Hg & Ht).
  pose proof (wreach_ok w Hw) as Hok. pose proof (proj1 (mirrors_mir U s A w I Hok H) M) as M'. split.
  - intros Ha. split.
    + intros o d Hl Hd. destruct (proj2 (C61_live U l s w o a Hr Hw M)) as (b & Hb & _); [split; [done|by exists d]|]. congruence.
    + destruct (known (ch s) !! a) as [o|] eqn:Hk; [|done]. apply (mi_weak _ _ _ _ _ M) in Hk as (h & Hh & <- & _).
      destruct Hok as [Hok _]. destruct (ok_hnd _ _ Hok h) as (b & Hb & _); [apply refs_in; eapply held_in; [exact Hh|left]|]. congruence.
  - intros [H1 H2]. destruct (heap (mm w) !! a) as [b|] eqn:Hb; [exfalso|done].
    destruct (mi_blk _ _ _ _ _ M a b Hb) as (d & Hd & _).
    destruct (block_why fields pk U A w a b Hw M' Hb) as [Hre|Hk].
    + apply (H1 (k_id b) d); [|done]. unfold live. rewrite <- (sh_live _ _ H). by eapply reach_live.
    + apply (sh_known _ _ H) in Hk as (d' & a' & Hd' & Hk). unfold at_addr in Hd'. rewrite Hd in Hd'. injection Hd' as _ <-. congruence.
Qed.
Corollary C61_alloc U l s w d :
  oruns U l s → wreach w → mirrors U s w →
  (∃ s', alloc E d s = Some (nobj s, s')) ↔ heap (mm w) !! e_ask E (tick s) = None.
Proof.
  intros Hr Hw M. rewrite (C61_free U l s w _ Hr Hw M). unfold alloc, is_known, live, at_addr.
  destruct (known (ch s) !! e_ask E (tick s)) as [o|].
  { cbv beta zeta. replace (_ || _) with true by (symmetry; apply orb_true_iff; right; apply bool_decide_eq_true_2; by exists o).
    split; [by intros [? ?]|by intros [_ ?]]. }
  cbv beta zeta. replace (bool_decide (is_Some None)) with false by done. rewrite orb_false_r.
  case_bool_decide as Hb; split; try (by intros [? ?]).
  - intros [H _]. destruct Hb as (o & Ho & Hoa). destruct (objs s !! o) as [[d' a']|] eqn:Hd; [|done]. cbn in Hoa. injection Hoa as ->. by destruct (H o d' Ho).
  - intros _. split; [|done]. intros o d' Ho Hd. apply Hb. exists o. split; [done|]. by rewrite Hd.
  - intros _. eauto.
Qed.

(** Upgrading the weak reference the cache has of a builder, as
    [garbage_collection] does, succeeds exactly if the builder is alive. *)
Theorem C61_upgrade U l s w h :
  oruns U l s → wreach w → mirrors U s w → TPtr h ∈ pool w →
  ∃ r m', can_upgrade h (mm w) = Some (r, m') ∧ (is_Some r ↔ live s (h_id h)) ∧ ∀ y, r = Some y → h_id y = h_id h.
Proof.
  intros Hr Hw M Hh. destruct (wreach_ok w Hw) as [Hok _].
  destruct (ok_hnd _ _ Hok h) as (b & Hb & Hi & _); [apply refs_in; eapply held_in; [exact Hh|left]|].
  destruct (mi_blk _ _ _ _ _ M _ b Hb) as (d & Hd & _). rewrite Hi in Hd.
  assert (live s (h_id h) ↔ 0 < k_strong b) as Hl.
  { pose proof (C61_live U l s w (h_id h) (h_ptr h) Hr Hw M) as X. split.
    - intros Hl. destruct (proj2 X) as (b' & Hb' & _ & Hs); [split; [done|by exists d]|]. congruence.
    - intros Hs. apply X. by exists b. }
  destruct (mi_only _ _ _ _ _ M _ Hh) as [[h' ?]|(h' & [= <-] & Hwk)]; [done|]. unfold is_weak in Hwk.
  unfold can_upgrade. destruct (h_view h); try done. rewrite Hb. setoid_rewrite Hl. destruct (k_strong b) as [|n].
  - exists None, (mm w). split_and!; [done| |done]. split; [by intros [? ?]|lia].
  - eexists _, _. split; [reflexivity|]. split; [split; [lia|eauto]|]. by intros y [= <-].
Qed.

(** When the user has dropped all blueprints and emptied the cache, in whatever
    order, all memory is given back. *)
Theorem C61_no_leak l s y w : oruns ∅ ((OClearAll, y) :: l) s → wreach w → mirrors ∅ s w → heap (mm w) = ∅.
Proof.
  intros Hr Hw M. apply map_empty. intros a. apply (C61_free ∅ _ s w a Hr Hw M). split; [intros o d Hl; by destruct (C58_no_leak _ _ _ _ _ _ Hr o)|].
  destruct (hist_o _ _ _ _ _ s Hr) as (I & Hst & A0 & A & HA & R & K & H & Hf & Hg & Ht).
  destruct (known (ch s) !! a) as [o|] eqn:Hk; [exfalso|done].
  destruct (ci_known_obj _ _ (i_c _ I) _ _ Hk) as (d & Hd).
  assert (o ∈ r_known A) as Hin by (apply (sh_known _ _ H); by exists d, a).
  inversion HA as [|l' A1 x' y' A' HA' Hc Hy]; subst. inversion Hc as [x' A2 A3 y' A4 N1 N2 R' Hrc| | | | | | | ]; subst.
  inversion Hrc; subst; [by match goal with Hm : mut_of _ _ |- _ => destruct Hm as [[f ?]|[f ?]] end|].
  rewrite (kb_known _ _ K) in Hin. cbn in Hin. by apply elem_of_empty in Hin.
Qed.
End C61.
Print Assumptions C61_start.
Print Assumptions C61_call.
Print Assumptions C61_panic.
Print Assumptions C61_release.
Print Assumptions C61_history.
Print Assumptions C61_live.
Print Assumptions C61_free.
Print Assumptions C61_alloc.
Print Assumptions C61_upgrade.
Print Assumptions C61_no_leak.

(** ** An example

    That of C58 with its history o_get: builders 0, 1, 2 are alive; 3, made and
    dropped by 2 while it was built, is known to the cache. *)
Definition o_addr (s : st) (o : obj) : addr := default 0%N (snd <$> objs s !! o).
Lemma applies_aux l s (xs : list obj) (x : obj) :
  oruns env_s o_fields o_keep {[2%N]} l s → (∀ o, o ∈ xs → o ∈ alive s) → x ∉ alive s → known (ch s) !! o_addr s x = Some x →
  ∃ w, wreach w ∧ mirrors o_fields PRc {[2%N]} s w ∧
    (∀ o, o ∈ xs → in_place w o (o_addr s o)) ∧ (∀ p, ¬ in_place w x p) ∧
    (∃ b, heap (mm w) !! o_addr s x = Some b ∧ k_id b = x ∧ k_strong b = 0) ∧
    ∃ h, TPtr h ∈ pool w ∧ h_id h = x ∧ can_upgrade h (mm w) = Some (None, mm w).
Proof.
  intros Hr Hin H3 Hk. destruct (C61_history env_s o_fields o_keep PRc _ _ _ ltac:(done) Hr) as (w & Hw & M). exists w. split; [done|]. split; [done|].
  split_and!.
  - intros o Ho. specialize (Hin o Ho). apply (C61_live _ _ _ _ _ _ _ w o _ Hr Hw M). split; [done|].
    destruct (hist_o _ _ _ _ _ s Hr) as (I & _). destruct (i_alive _ I o Hin) as [[d a] Hd]. exists d. unfold o_addr, at_addr. by rewrite Hd.
  - intros p Hp. apply (C61_live _ _ _ _ _ _ _ w _ p Hr Hw M) in Hp as [Hl _]. done.
  - destruct (proj2 (mi_weak _ _ _ _ _ M _ _) Hk) as (h & Hh & Hp & Hi). destruct (wreach_ok w Hw) as [Hok _].
    destruct (ok_hnd _ _ Hok h) as (b & Hb & Hbi & _); [apply refs_in; eapply held_in; [exact Hh|left]|].
    exists b. rewrite <- Hp. split; [done|]. split; [congruence|]. destruct (k_strong b) eqn:Hs; [done|]. destruct H3.
    apply (C61_live _ _ _ _ _ _ _ w _ (h_ptr h) Hr Hw M). exists b. split; [done|]. split; [congruence|lia].
  - destruct (proj2 (mi_weak _ _ _ _ _ M _ _) Hk) as (h & Hh & Hp & Hi). exists h. split; [done|]. split; [done|].
    destruct (C61_upgrade _ _ _ _ _ _ _ w h Hr Hw M Hh) as (r & m' & Hu & Hl & _). rewrite Hi in Hl.
    destruct r as [y|]; [by destruct H3; apply Hl|]. rewrite Hu. unfold can_upgrade in Hu. destruct (h_view h); try done.
    destruct (heap (mm w) !! h_ptr h) as [b|]; [|done]. destruct (k_strong b); [by injection Hu as <-|done].
Qed.
Theorem C61_applies :
  (oruns env_s o_fields o_keep {[2%N]} (o_end o_get).1.2 (o_end o_get).2 ∧
   ∃ w, wreach w ∧ mirrors o_fields PRc {[2%N]} (o_end o_get).2 w ∧
     (∀ o, o ∈ [0; 1; 2]%N → in_place w o (o_addr (o_end o_get).2 o)) ∧
     (** 3 is dropped, but its memory is not free, and upgrading the weak reference
         to it fails *)
     (∀ p, ¬ in_place w 3%N p) ∧ (∃ b, heap (mm w) !! o_addr (o_end o_get).2 3%N = Some b ∧ k_id b = 3%N ∧ k_strong b = 0) ∧
     ∃ h, TPtr h ∈ pool w ∧ h_id h = 3%N ∧ can_upgrade h (mm w) = Some (None, mm w)) ∧
  (** After emptying the cache and dropping 2, nothing is left. *)
  (oruns env_s o_fields o_keep ∅ (o_end o_clear).1.2 (o_end o_clear).2 ∧
   ∃ w, wreach w ∧ mirrors o_fields PRc ∅ (o_end o_clear).2 w ∧ heap (mm w) = ∅).
Proof.
  destruct C58_applies as (_ & (Hr & _) & _ & _ & (Hr2 & _)). split; (split; [assumption|]).
  - apply (applies_aux (o_end o_get).1.2); [exact Hr|..].
    + intros o Ho. rewrite !elem_of_cons, elem_of_nil in Ho. destruct Ho as [-> |[-> |[-> |[]]]];
        apply (bool_decide_eq_true_1 _); vm_compute; reflexivity.
    + apply (bool_decide_eq_false_1 _); vm_compute; reflexivity.
    + vm_compute; reflexivity.
  - assert ((o_end o_clear).1.2 = (OClearAll, Returned OutUnit) :: (o_end o_get).1.2) as Hl by (vm_compute; reflexivity).
    rewrite Hl in Hr2. clear Hl Hr. revert Hr2. generalize (o_end o_clear).2 as s, (o_end o_get).1.2 as l. intros s l Hr2.
    destruct (C61_history env_s o_fields o_keep PRc _ _ _ ltac:(done) Hr2) as (w & Hw & M). exists w. split; [done|]. split; [done|].
    by eapply C61_no_leak.
Qed.
Print Assumptions C61_applies.
