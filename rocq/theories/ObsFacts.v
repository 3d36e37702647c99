(** Lemmas relating the observables of [Spec.v] to the cache. *)
From Verif Require Export Spec InvStep.
From stdpp Require Import relations.

Lemma cached_at s o d a : at_addr s o d a → known (ch s) !! a = Some o →
  cached s o = ar_bin <$> artifacts (ch s) !! a.
Proof. intros Ho Hk. unfold cached. rewrite Ho. rewrite decide_True by done. by destruct (_ !! a). Qed.
Lemma state_at s o d a : at_addr s o d a → known (ch s) !! a = Some o →
  state_of s o = ds_val <$> dyn_states (ch s) !! a.
Proof. intros Ho Hk. unfold state_of. rewrite Ho. rewrite decide_True by done. by destruct (_ !! a). Qed.
Lemma cached_unknown s o : ¬ knows s o → cached s o = None.
Proof.
  intros Hk. unfold cached. destruct (objs s !! o) as [[d a]|] eqn:Ho; [|done].
  destruct (decide _); [|done]. exfalso. apply Hk. exists d, a. done.
Qed.
Lemma state_unknown s o : ¬ knows s o → state_of s o = None.
Proof.
  intros Hk. unfold state_of. destruct (objs s !! o) as [[d a]|] eqn:Ho; [|done].
  destruct (decide _); [|done]. exfalso. apply Hk. exists d, a. done.
Qed.
Global Instance knows_dec s o : Decision (knows s o).
Proof.
  destruct (objs s !! o) as [[d a]|] eqn:Ho.
  - destruct (decide (known (ch s) !! a = Some o)) as [Hk|Hk].
    + left. exists d, a. done.
    + right. intros (d' & a' & Ho' & Hk'). unfold at_addr in Ho'. congruence.
  - right. intros (d' & a' & Ho' & Hk'). unfold at_addr in Ho'. congruence.
Qed.

Lemma knows_known s a o : Inv s → known (ch s) !! a = Some o → ∃ d, at_addr s o d a ∧ knows s o.
Proof.
  intros I Hk. destruct (ci_known_obj _ _ (i_c _ I) a o Hk) as [d Hd]. exists d. split; [done|].
  exists d, a. done.
Qed.
Lemma knows_at s o d a : at_addr s o d a → knows s o ↔ known (ch s) !! a = Some o.
Proof.
  intros Ho. split.
  - intros (d' & a' & Ho' & Hk). unfold at_addr in *. congruence.
  - intros Hk. exists d, a. done.
Qed.

(** For a live builder whatever is stored under its id is its own. *)
Lemma live_cached s o d a : Inv s → promise o s = Some (d, a) →
  cached s o = ar_bin <$> artifacts (ch s) !! a.
Proof.
  intros I Hp. apply promise_Some in Hp as Hp'. destruct Hp' as [Hal Ho].
  destruct (artifacts (ch s) !! a) as [e|] eqn:He.
  - assert (is_Some (known (ch s) !! a)) as [o' Hk].
    { apply (ci_dyn_known _ _ (i_c _ I)), (ci_art_dyn _ _ (i_c _ I)). eauto. }
    assert (o' = o) as -> by (exact (Inv_known_is s o d a o' I Hp Hk)).
    rewrite (cached_at s o d a Ho Hk), He. done.
  - unfold cached. rewrite Ho, He. by destruct (decide _).
Qed.
Lemma live_state s o d a : Inv s → promise o s = Some (d, a) →
  state_of s o = ds_val <$> dyn_states (ch s) !! a.
Proof.
  intros I Hp. apply promise_Some in Hp as Hp'. destruct Hp' as [Hal Ho].
  destruct (dyn_states (ch s) !! a) as [e|] eqn:He.
  - assert (is_Some (known (ch s) !! a)) as [o' Hk].
    { apply (ci_dyn_known _ _ (i_c _ I)). eauto. }
    assert (o' = o) as -> by (exact (Inv_known_is s o d a o' I Hp Hk)).
    rewrite (state_at s o d a Ho Hk), He. done.
  - unfold state_of. rewrite Ho, He. by destruct (decide _).
Qed.
Lemma live_knows s o d a : Inv s → promise o s = Some (d, a) →
  knows s o ↔ is_Some (known (ch s) !! a).
Proof.
  intros I Hp. apply promise_Some in Hp as Hp'. destruct Hp' as [Hal Ho].
  rewrite (knows_at s o d a Ho). split; [eauto|]. intros [o' Hk].
  assert (o' = o) as -> by (exact (Inv_known_is s o d a o' I Hp Hk)). done.
Qed.
Lemma live_promise s o : Inv s → live s o → ∃ d a, promise o s = Some (d, a).
Proof.
  intros I Hl. destruct (i_alive _ I o Hl) as [[d a] Ho]. exists d, a. by apply promise_Some.
Qed.

Lemma depends_dep_rel s u w du ua dw wa :
  at_addr s u du ua → known (ch s) !! ua = Some u →
  at_addr s w dw wa → known (ch s) !! wa = Some w →
  depends s u w ↔ dep_rel (ch s) wa ua.
Proof.
  intros Hu Hku Hw Hkw. unfold dep_rel. split.
  - intros (du' & ua' & dw' & wa' & X & Hu' & _ & Hw' & _ & HX & Hin). unfold at_addr in *.
    assert (ua' = ua) as -> by congruence. assert (wa' = wa) as -> by congruence.
    rewrite HX. done.
  - intros Hin. destruct (dependents (ch s) !! wa) as [X|] eqn:HX; cbn in Hin; [|set_solver].
    exists du, ua, dw, wa, X. done.
Qed.
Lemma dep_rel_depends s wa ua : Inv s → dep_rel (ch s) wa ua →
  ∃ u w du dw, at_addr s u du ua ∧ known (ch s) !! ua = Some u ∧
    at_addr s w dw wa ∧ known (ch s) !! wa = Some w ∧ depends s u w.
Proof.
  intros I Hd. destruct (ci_edge_known _ _ (i_c _ I) _ _ Hd) as [[w Hw] [u Hu]].
  destruct (knows_known s wa w I Hw) as (dw & Hwa & _).
  destruct (knows_known s ua u I Hu) as (du & Hua & _).
  exists u, w, du, dw. split_and!; try done. by eapply depends_dep_rel.
Qed.

(** Transitive dependents, by id and by builder. *)
Lemma affected_rtc s o d a w dw wa :
  Inv s → promise o s = Some (d, a) → at_addr s w dw wa → known (ch s) !! wa = Some w →
  affected s o w ↔ rtc (dep_rel (ch s)) a wa.
Proof.
  intros I Hp Hw Hkw. apply promise_Some in Hp as Hp'. destruct Hp' as [Hal Ho]. split.
  - intros H. revert dw wa Hw Hkw.
    refine (rtc_ind_r (λ w, ∀ dw wa, at_addr s w dw wa → known (ch s) !! wa = Some w → rtc (dep_rel (ch s)) a wa) o _ _ w H).
    + intros dw wa Hw Hkw. unfold at_addr in Hw. assert (wa = a) as -> by congruence. apply rtc_refl.
    + clear w H. intros u w Hou Hd IH dw wa Hw Hkw. destruct Hd as (du' & ua' & dw' & wa' & X & Hu' & Hku & Hw' & Hkw' & HX & Hin). unfold at_addr in *.
      assert (ua' = wa) as -> by congruence.
      eapply rtc_r; [by eapply IH|]. unfold dep_rel. by rewrite HX.
  - intros H. revert dw w Hw Hkw.
    refine (rtc_ind_r (λ wa, ∀ dw w, at_addr s w dw wa → known (ch s) !! wa = Some w → affected s o w) a _ _ wa H).
    + intros dw w Hw Hkw. assert (w = o) as -> by (exact (Inv_known_is s o d a w I Hp Hkw)). apply rtc_refl.
    + clear wa H. intros wa ua Hou Hd IH dw w Hw Hkw. destruct (dep_rel_depends s wa ua I Hd) as (u & w' & du' & dw' & Hu & Hku & Hw' & Hkw' & Hdep).
      assert (u = w) as -> by congruence.
      eapply rtc_r; [|exact Hdep]. by eapply IH.
Qed.

(** ** Observing a pruned cache *)
Section Pruned.
Context (s s' : st) (C K L : gset addr).
Hypothesis (I : Inv s) (Hobjs : objs s' = objs s) (Hp : pruned (ch s) C K L (ch s')).

Lemma pruned_knows w d a : at_addr s w d a → knows s' w ↔ knows s w ∧ a ∉ K.
Proof using I Hobjs Hp.
  intros Hw. rewrite (knows_at s w d a Hw).
  assert (at_addr s' w d a) as Hw' by (unfold at_addr in *; congruence).
  rewrite (knows_at s' w d a Hw'), (pn_known _ _ _ _ _ Hp). case_bool_decide; naive_solver.
Qed.
Lemma pruned_cached w d a : K ⊆ C → at_addr s w d a → knows s w →
  cached s' w = if decide (a ∈ C) then None else cached s w.
Proof using I Hobjs Hp.
  intros HKC Hw Hk.
  assert (at_addr s' w d a) as Hw' by (unfold at_addr in *; congruence).
  destruct (decide (a ∈ K)) as [HaK|HaK].
  - rewrite decide_True by set_solver. apply cached_unknown.
    rewrite (pruned_knows w d a Hw). tauto.
  - assert (knows s' w) as Hk' by (rewrite (pruned_knows w d a Hw); done).
    rewrite (cached_at s' w d a Hw') by (by eapply knows_at).
    rewrite (cached_at s w d a Hw) by (by eapply knows_at).
    rewrite (pn_art _ _ _ _ _ Hp). case_bool_decide; destruct (decide _); done.
Qed.
Lemma pruned_state w d a : at_addr s w d a → knows s w →
  state_of s' w = if decide (a ∈ K) then None else state_of s w.
Proof using I Hobjs Hp.
  intros Hw Hk.
  assert (at_addr s' w d a) as Hw' by (unfold at_addr in *; congruence).
  destruct (decide (a ∈ K)) as [HaK|HaK].
  - apply state_unknown. rewrite (pruned_knows w d a Hw). tauto.
  - assert (knows s' w) as Hk' by (rewrite (pruned_knows w d a Hw); done).
    rewrite (state_at s' w d a Hw') by (by eapply knows_at).
    rewrite (state_at s w d a Hw) by (by eapply knows_at).
    rewrite (pn_dyn _ _ _ _ _ Hp). rewrite bool_decide_eq_false_2; done.
Qed.
Lemma pruned_depends u w du ua dw wa : K ⊆ C →
  at_addr s u du ua → at_addr s w dw wa →
  depends s' u w ↔ depends s u w ∧ ua ∉ C ∧ wa ∉ C.
Proof using Hobjs Hp I.
  intros HKC Hu Hw.
  assert (at_addr s' w dw wa) as Hw' by (unfold at_addr in *; congruence).
  assert (at_addr s' u du ua) as Hu' by (unfold at_addr in *; congruence).
  split.
  - intros Hd. assert (knows s' u ∧ knows s' w) as [Hku Hkw].
    { destruct Hd as (? & ? & ? & ? & ? & ? & ? & ? & ? & ?). split; by eexists _, _. }
    eapply depends_dep_rel in Hd; [|exact Hu'|by eapply knows_at|exact Hw'|by eapply knows_at].
    apply (pruned_dep_rel _ _ _ _ _ _ _ Hp) in Hd as (? & ? & Hd).
    apply (pruned_knows u du ua Hu) in Hku as [Hku _].
    apply (pruned_knows w dw wa Hw) in Hkw as [Hkw _].
    split; [|done]. eapply depends_dep_rel; [exact Hu|by eapply knows_at|exact Hw|by eapply knows_at|done].
  - intros (Hd & HuC & HwC). assert (knows s u ∧ knows s w) as [Hku Hkw].
    { destruct Hd as (? & ? & ? & ? & ? & ? & ? & ? & ? & ?). split; by eexists _, _. }
    eapply depends_dep_rel in Hd; [|exact Hu|by eapply knows_at|exact Hw|by eapply knows_at].
    assert (knows s' u) as Hku' by (rewrite (pruned_knows u du ua Hu); set_solver).
    assert (knows s' w) as Hkw' by (rewrite (pruned_knows w dw wa Hw); set_solver).
    eapply depends_dep_rel; [exact Hu'|by eapply knows_at|exact Hw'|by eapply knows_at|].
    apply (pruned_dep_rel _ _ _ _ _ _ _ Hp). done.
Qed.
End Pruned.

Lemma depends_knows s u w : depends s u w → knows s u ∧ knows s w.
Proof. intros (? & ? & ? & ? & ? & ? & ? & ? & ? & ?). split; by eexists _, _. Qed.
