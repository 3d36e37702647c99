(** Exact effect of each operation, in terms of the observables. *)
From Verif Require Export ObsFacts.
From stdpp Require Import relations.

Lemma calls_log e s o : is_call o e = false → calls (log e s) o = calls s o.
Proof. intros He. unfold calls, count, log. cbn [trace]. rewrite filter_cons, decide_False; [done|]. by rewrite He. Qed.

Lemma calls_ECall u s o : calls (log (ECall u) s) o = if decide (u = o) then S (calls s o) else calls s o.
Proof.
  unfold calls, count, log. cbn [trace]. rewrite filter_cons. cbn [is_call].
  destruct (decide (u = o)) as [->|Hne].
  - rewrite decide_True by (by rewrite N.eqb_refl). done.
  - rewrite decide_False; [done|]. by rewrite N.eqb_eq.
Qed.
Lemma builds_log e s o : is_built o e = false → builds (log e s) o = builds s o.
Proof. intros He. unfold builds, count, log. cbn [trace]. rewrite filter_cons, decide_False; [done|]. by rewrite He. Qed.
Lemma builds_EBuilt u b s o : builds (log (EBuilt u b) s) o = if decide (u = o) then S (builds s o) else builds s o.
Proof.
  unfold builds, count, log. cbn [trace]. rewrite filter_cons. cbn [is_built].
  destruct (decide (u = o)) as [->|Hne].
  - rewrite decide_True by (by rewrite N.eqb_refl). done.
  - rewrite decide_False; [done|]. by rewrite N.eqb_eq.
Qed.
Global Arguments calls : simpl never.
Global Arguments builds : simpl never.

(** Exactly the events [l] were added, and no builder was re-entered. *)
Definition adds (l : list event) (s s' : st) : Prop := trace s' = l ++ trace s ∧ reent s' = reent s.

Lemma adds_calls s s' l o : adds l s s' → calls s' o = count (is_call o) l + calls s o.
Proof. intros [H _]. unfold calls, count. by rewrite H, filter_app, app_length. Qed.
Lemma adds_builds s s' l o : adds l s s' → builds s' o = count (is_built o) l + builds s o.
Proof. intros [H _]. unfold builds, count. by rewrite H, filter_app, app_length. Qed.

Lemma pruned_forgets s s' C K L (F G : obj → Prop) :
  Inv s → pruned (ch s) C K L (ch s') → K ⊆ C →
  objs s' = objs s → alive s' = alive s → (∀ w, calls s' w = calls s w) →
  (∀ w d a, at_addr s w d a → knows s w → a ∈ C ↔ F w) →
  (∀ w d a, at_addr s w d a → knows s w → a ∈ K ↔ G w) →
  forgets s F G s'.
Proof.
  intros I Hp HKC Ho Hal Hc HF HG.
  assert (∀ w, knows s' w → knows s w) as Hmono.
  { intros w (d & a & Hw & Hk). unfold at_addr in Hw. rewrite Ho in Hw.
    assert (knows s' w) as Hk' by (exists d, a; unfold at_addr; rewrite Ho; done).
    by apply (pruned_knows s s' C K L I Ho Hp w d a Hw) in Hk' as [? _]. }
  split; try done.
  - intros w Hw. destruct (decide (knows s w)) as [Hk|Hk].
    + destruct Hk as (d & a & Hwa & Hk0). assert (knows s w) as Hk by (by exists d, a).
      rewrite (pruned_cached s s' C K L I Ho Hp w d a HKC Hwa Hk). rewrite decide_True; [done|]. by eapply HF.
    + apply cached_unknown. naive_solver.
  - intros w Hw. destruct (decide (knows s w)) as [Hk|Hk].
    + destruct Hk as (d & a & Hwa & Hk0). assert (knows s w) as Hk by (by exists d, a).
      rewrite (pruned_cached s s' C K L I Ho Hp w d a HKC Hwa Hk). rewrite decide_False; [done|].
      rewrite HF; eauto.
    + rewrite !cached_unknown; [done|done|naive_solver].
  - intros w Hw. destruct (decide (knows s w)) as [Hk|Hk].
    + destruct Hk as (d & a & Hwa & Hk0). assert (knows s w) as Hk by (by exists d, a).
      rewrite (pruned_state s s' C K L I Ho Hp w d a Hwa Hk). rewrite decide_True; [done|]. by eapply HG.
    + apply state_unknown. naive_solver.
  - intros w Hw. destruct (decide (knows s w)) as [Hk|Hk].
    + destruct Hk as (d & a & Hwa & Hk0). assert (knows s w) as Hk by (by exists d, a).
      rewrite (pruned_state s s' C K L I Ho Hp w d a Hwa Hk). rewrite decide_False; [done|].
      rewrite HG; eauto.
    + rewrite !state_unknown; [done|done|naive_solver].
  - intros w. split.
    + intros Hk'. specialize (Hmono w Hk') as Hk. split; [done|].
      destruct Hk as (d & a & Hwa & Hk0). apply (pruned_knows s s' C K L I Ho Hp w d a Hwa) in Hk' as [Hk HaK].
      by rewrite <- (HG w d a Hwa Hk).
    + intros [Hk HGw]. destruct Hk as (d & a & Hwa & Hk0). assert (knows s w) as Hk by (by exists d, a).
      apply (pruned_knows s s' C K L I Ho Hp w d a Hwa). split; [done|]. by rewrite (HG w d a Hwa Hk).
  - intros u w. split.
    + intros Hd. apply depends_knows in Hd as Hk. destruct Hk as [Hku Hkw]. apply Hmono in Hku, Hkw.
      destruct Hku as (du & ua & Hua & Hku0). destruct Hkw as (dw & wa & Hwa & Hkw0).
      assert (knows s u) as Hku by (by exists du, ua). assert (knows s w) as Hkw by (by exists dw, wa).
      apply (pruned_depends s s' C K L I Ho Hp u w du ua dw wa HKC Hua Hwa) in Hd as (Hd & H1 & H2).
      split; [done|]. by rewrite <- (HF u du ua Hua Hku), <- (HF w dw wa Hwa Hkw).
    + intros (Hd & H1 & H2). apply depends_knows in Hd as Hk. destruct Hk as [Hku Hkw].
      destruct Hku as (du & ua & Hua & Hku0). destruct Hkw as (dw & wa & Hwa & Hkw0).
      assert (knows s u) as Hku by (by exists du, ua). assert (knows s w) as Hkw by (by exists dw, wa).
      apply (pruned_depends s s' C K L I Ho Hp u w du ua dw wa HKC Hua Hwa).
      by rewrite (HF u du ua Hua Hku), (HF w dw wa Hwa Hkw).
  - intros w. unfold live. by rewrite Hal.
Qed.

Lemma affected_C s o d a C :
  Inv s → promise o s = Some (d, a) → (∀ x, x ∈ C ↔ rtc (dep_rel (ch s)) a x) →
  ∀ w dw wa, at_addr s w dw wa → knows s w → wa ∈ (C : gset addr) ↔ affected s o w.
Proof.
  intros I Hp HC w dw wa Hw Hk. rewrite HC. symmetry. eapply affected_rtc; [done..|]. by eapply knows_at.
Qed.

Section Ops.
Context (E : env).

Lemma invalidate_effect n o s :
  Inv s → live s o →
  ∃ s', step E n (OInvalidate o) s = Done OutUnit s' ∧ forgets s (affected s o) (λ _, False) s'.
Proof.
  intros I Hl. destruct (live_promise s o I Hl) as (d & a & Hp).
  destruct (invalidate_ok (e_dbg E) (prio E s 0) a (ch s) (ci_sync _ _ (i_c _ I))) as (C & c' & Heq & Hpr & HC).
  cbn [step]. rewrite Hp, Heq. cbn [lift]. eexists. split; [done|].
  eapply (pruned_forgets s _ C ∅ ∅); try done.
  - by eapply affected_C.
Qed.

Lemma purge_effect n o s :
  Inv s → live s o →
  ∃ s', step E n (OPurge o) s = Done OutUnit s' ∧ forgets s (affected s o) (eq o) s'.
Proof.
  intros I Hl. destruct (live_promise s o I Hl) as (d & a & Hp).
  destruct (purge_ok (e_dbg E) (prio E s 0) a (ch s) (ci_sync _ _ (i_c _ I))) as (C & c' & Heq & Hpr & HC).
  cbn [step]. rewrite Hp, Heq. cbn [lift]. eexists. split; [done|].
  eapply (pruned_forgets s _ C {[a]} ∅); try done.
  - intros x ->%elem_of_singleton. apply HC. apply rtc_refl.
  - by eapply affected_C.
  - intros w dw wa Hw Hk. rewrite elem_of_singleton. split.
    + intros ->. symmetry. eapply (Inv_known_is s o d a w); [done..|]. by eapply knows_at.
    + intros <-. apply promise_Some in Hp as [_ Hp]. unfold at_addr in Hw. congruence.
Qed.

(** The builders garbage collection is supposed to remove: known, without
    strong reference, and nobody depends on them. *)
Lemma gc_done_effect n s r s' :
  Inv s → step E n OGc s = Done r s' →
  r = OutUnit ∧
  forgets s (λ w, knows s w ∧ ¬ live s w ∧ ∀ u, ¬ depends s u w)
            (λ w, knows s w ∧ ¬ live s w ∧ ∀ u, ¬ depends s u w) s'.
Proof.
  intros I. destruct (gc_ok (e_dbg E) (prio E s) (alive s) (objs s) (ch s) (i_c _ I)) as [Hok Hno].
  cbn [step]. destruct (decide (leafs (ch s) ⊆ dom (known (ch s)))) as [Hsub|Hsub].
  - destruct (Hok Hsub) as (D & c' & Heq & Hpr & Hcl & HD). rewrite Heq. cbn [lift]. intros [= <- <-].
    split; [done|].
    assert (∀ w d a, at_addr s w d a → knows s w → a ∈ D ↔ knows s w ∧ ¬ live s w ∧ ∀ u, ¬ depends s u w) as HF.
    { intros w d a Hw Hk. rewrite HD. unfold collectable.
      assert (known (ch s) !! a = Some w) as Hka by (by eapply knows_at).
      rewrite (ci_leaf _ _ (i_c _ I)) by eauto. split.
      - intros (Hlf & o' & Ho' & Hd). assert (o' = w) as -> by congruence. split_and!; [done..|].
        intros u Hu. apply depends_knows in Hu as Hku. destruct Hku as [(du & ua & Hua & Hku) _].
        eapply Hlf. by eapply (depends_dep_rel s u w).
      - intros (_ & Hd & Hlf). split; [|by exists w]. intros y Hy.
        destruct (dep_rel_depends s a y I Hy) as (u & w' & du & dw & Hu & Hku & Hw' & Hkw & Hdep).
        assert (w' = w) as -> by congruence. by eapply Hlf. }
    eapply (pruned_forgets s _ D D D); try done.
  - rewrite (Hno Hsub). done.
Qed.

Lemma clear_artifacts_effect n s :
  step E n OClearArtifacts s = Done OutUnit (set_ch (clear_artifacts (ch s)) s) ∧
  forgets s (λ _, True) (λ _, False) (set_ch (clear_artifacts (ch s)) s).
Proof.
  split; [done|]. split; try done.
  - intros w _. unfold cached. cbn. destruct (objs s !! w) as [[d a]|]; [|done]. destruct (decide _); [|done].
    by rewrite lookup_empty.
  - intros w. split; [|tauto]. intros Hk. split; [|tauto]. done.
  - intros u w. split; [|tauto]. intros (? & ? & ? & ? & X & ? & ? & ? & ? & HX & ?). cbn in HX. by rewrite lookup_empty in HX.
Qed.

Lemma clear_all_effect n s :
  step E n OClearAll s = Done OutUnit (log EClear (set_ch empty_cache s)) ∧
  forgets s (λ _, True) (λ _, True) (log EClear (set_ch empty_cache s)).
Proof.
  split; [cbn [step]; by rewrite clear_all_empty|]. split; try done.
  - intros w _. unfold cached. cbn. destruct (objs s !! w) as [[d a]|]; [|done]. rewrite lookup_empty.
    destruct (decide _); done.
  - intros w _. unfold state_of. cbn. destruct (objs s !! w) as [[d a]|]; [|done]. rewrite lookup_empty.
    destruct (decide _); done.
  - intros w. split; [|tauto]. intros (? & ? & ? & Hk). cbn in Hk. by rewrite lookup_empty in Hk.
  - intros u w. split; [|tauto]. intros (? & ? & ? & ? & X & ? & ? & ? & ? & HX & ?). cbn in HX. by rewrite lookup_empty in HX.
Qed.

(** Observers. *)
Lemma lookup_effect n h o s :
  Inv s → live s o → how_legal E h = true →
  step E n (OLookup h o) s = Done (OutOpt (conv h <$> cached s o)) s.
Proof.
  intros I Hl Hh. destruct (live_promise s o I Hl) as (d & a & Hp).
  cbn [step]. rewrite Hp, Hh, (lookup_art_ok _ o s d a I Hp), (live_cached s o d a I Hp).
  by destruct (artifacts (ch s) !! a).
Qed.
Lemma get_hit_effect n h o s b :
  Inv s → live s o → how_legal E h = true → cached s o = Some b →
  step E n (OGet h o) s = Done (OutRes (conv h b)) s.
Proof.
  intros I Hl Hh Hc. destruct (live_promise s o I Hl) as (d & a & Hp).
  cbn [step]. unfold get, get_with. rewrite Hp, Hh, (lookup_art_ok _ o s d a I Hp).
  rewrite (live_cached s o d a I Hp) in Hc. destruct (artifacts (ch s) !! a) as [e|]; [|done].
  cbn in Hc. by injection Hc as ->.
Qed.
Lemma get_dyn_state_effect n o s :
  Inv s → live s o → step E n (OGetDynState o) s = Done (OutOptVal (state_of s o)) s.
Proof.
  intros I Hl. destruct (live_promise s o I Hl) as (d & a & Hp).
  cbn [step]. rewrite Hp, (live_state s o d a I Hp). unfold get_dyn_state.
  destruct (dyn_states (ch s) !! a) as [v|] eqn:Hv; [|done].
  destruct (ci_dyn_known _ _ (i_c _ I) a) as [o' Hk]; [by eauto|].
  assert (o' = o) as -> by (exact (Inv_known_is s o d a o' I Hp Hk)).
  unfold is_known. rewrite bool_decide_eq_true_2 by eauto. rewrite andb_false_r.
  apply promise_Some in Hp as [_ Ho].
  rewrite (ci_dyn_ty _ _ (i_c _ I) a v o d Hv Hk Ho), N.eqb_refl. done.
Qed.
Lemma is_known_effect n o s :
  Inv s → live s o → step E n (OIsKnown o) s = Done (OutBool (bool_decide (knows s o))) s.
Proof.
  intros I Hl. destruct (live_promise s o I Hl) as (d & a & Hp).
  cbn [step]. rewrite Hp. unfold is_known. f_equal. f_equal. apply bool_decide_ext.
  symmetry. by eapply live_knows.
Qed.
End Ops.
