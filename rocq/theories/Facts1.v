(** Lemmas behind Props1.v. *)
From Verif Require Export HistFacts.
From stdpp Require Import relations.

Section Facts1.
Context (E : env).
Notation prims := (rtc (prim E)).

Lemma get_hit_or_miss n h o s :
  Inv s → live s o → how_legal E h = true →
  match cached s o with
  | Some b => step E n (OGet h o) s = Done (OutRes (conv h b)) s
  | None => ∀ r s', step E n (OGet h o) s = Done r s' → calls s o < calls s' o
  end.
Proof.
  intros I Hl Hh. destruct (cached s o) as [b|] eqn:Hc; [by apply get_hit_effect|].
  intros r s' Hs. destruct (live_promise s o I Hl) as (d & a & Hp).
  rewrite (live_cached s o d a I Hp) in Hc.
  assert (artifacts (ch s) !! a = None) as Ha by (by destruct (artifacts (ch s) !! a)).
  cbn [step] in Hs. unfold get, get_with in Hs. rewrite Hp, Hh, (lookup_art_ok _ o s d a I Hp), Ha in Hs.
  destruct (build E n o s) as [br s1|k s1| |] eqn:Hb; try done.
  destruct (build_shape E n o s d a br s1 I Hp Ha Hb) as (s2 & _ & _ & Hlt & Hc2).
  assert (calls s1 o = calls s2 o) as Heq by (destruct Hc2 as [(b & _ & ->)|(e & _ & ->)]; done).
  destruct br as [e|e]; [destruct (_ =? _)%N|]; try done; injection Hs as _ <-; lia.
Qed.

Lemma get_ok_cached n h o s r s' :
  Inv s → step E n (OGet h o) s = Done (OutRes r) s' → (∀ e, r ≠ RvErr e) →
  ∃ b, cached s' o = Some b ∧ r = conv h b ∧ live s' o.
Proof.
  intros I Hs Hr. cbn [step] in Hs. unfold get, get_with in Hs.
  destruct (promise o s) as [[d a]|] eqn:Hp; [|done]. destruct (how_legal E h); [|done].
  rewrite (lookup_art_ok _ o s d a I Hp) in Hs. destruct (artifacts (ch s) !! a) as [e|] eqn:Ha.
  - injection Hs as <- <-. exists (ar_bin e). rewrite (live_cached s o d a I Hp), Ha.
    split_and!; [done..|]. by eapply promise_live.
  - destruct (build E n o s) as [[e|e] s1|k s1| |] eqn:Hb; try done; [|naive_solver].
    destruct (build_alive E n o s d a _ s1 I Hp Ha Hb) as [Hp1 Hk].
    destruct (build_done E n o s d a _ s1 I Hp Ha Hb) as [_ Hart].
    destruct (_ =? _)%N; [|done]. injection Hs as <- <-. exists (ar_bin e).
    apply promise_Some in Hp1 as [Hal Ho].
    rewrite (cached_at s1 o d a Ho Hk), Hart. done.
Qed.

Lemma get_again s n h o r s1 l s2 n' h' :
  reachable E s → step E n (OGet h o) s = Done (OutRes r) s1 → (∀ e, r ≠ RvErr e) →
  runs E (keeps o) s1 l s2 → live s2 o → how_legal E h' = true →
  ∃ b, r = conv h b ∧ step E n' (OGet h' o) s2 = Done (OutRes (conv h' b)) s2.
Proof.
  intros [I Hst]%reach_Inv Hs Hr Hruns Hl Hh.
  destruct (get_ok_cached n h o s r s1 I Hs Hr) as (b & Hc & -> & _).
  destruct (step_Inv E _ _ _ _ _ I Hst Hs) as [I1 Hst1].
  destruct (keeps_runs E o s1 l s2 b I1 Hst1 Hruns Hc) as [Hc2 _].
  destruct (runs_Inv E _ _ _ _ Hruns I1 Hst1) as [I2 _].
  exists b. split; [done|]. by apply get_hit_effect.
Qed.

Lemma at_most_one_build s l s' o :
  Inv s → stack s = [] → runs E (keeps o) s l s' → reent s' = false →
  builds s' o ≤ builds s o + 1 ∧ (cached s o ≠ None → builds s' o = builds s o ∧ calls s' o = calls s o).
Proof.
  intros I Hst Hr Hre. pose proof (keeps_runs_builds E o s l s' I Hst Hr Hre) as Hb. unfold budget in Hb. split.
  - destruct (cached s o), (cached s' o); lia.
  - intros Hc. destruct (cached s o) as [b|] eqn:Hcb; [|done].
    destruct (keeps_runs E o s l s' b I Hst Hr Hcb) as [Hc' Hcalls]. split; [|done].
    rewrite Hc' in Hb. assert (builds s o ≤ builds s' o); [|lia].
    refine (runs_inv E (keeps o) (λ x, builds s o ≤ builds x o) s l s' I Hst _ _ Hr); [done|].
    intros n x s1 s2 I1 Hst1 H1 Hk Hg. change (builds (unwound s2) o) with (builds s2 o).
    destruct (keeps_step E n x o s1 s2 I1 Hst1 Hk Hg)
      as [(l' & _ & Ha & _)|(s3 & s4 & I3 & _ & _ & Ha1 & Hp & _ & Ha2)].
    + rewrite (adds_builds _ _ _ _ Ha). lia.
    + rewrite (adds_nil_builds _ _ _ Ha2). rewrite <- (adds_nil_builds _ _ o Ha1) in H1.
      destruct (prims_trace E _ _ Hp) as [l2 Hl2]. unfold builds in *. rewrite Hl2, count_app. lia.
Qed.

Lemma invalidate_exact s n o :
  Inv s → live s o →
  ∃ s', step E n (OInvalidate o) s = Done OutUnit s' ∧
    (∀ w, affected s o w → cached s' w = None) ∧
    (∀ w, ¬ affected s o w → cached s' w = cached s w) ∧
    (∀ u w, depends s' u w ↔ depends s u w ∧ ¬ affected s o u ∧ ¬ affected s o w).
Proof.
  intros I Hl. destruct (invalidate_effect E n o s I Hl) as (s' & Hs & [H1 H2 _ _ _ H3 _ _ _]).
  by exists s'.
Qed.

Lemma invalidate_frame s n o s' :
  Inv s → stack s = [] → step E n (OInvalidate o) s = Done OutUnit s' →
  (∀ w, state_of s' w = state_of s w) ∧ (∀ w, knows s' w ↔ knows s w) ∧
  number_of_known (ch s') = number_of_known (ch s) ∧
  (∀ w, live s' w ↔ live s w) ∧ (∀ w, calls s' w = calls s w).
Proof.
  intros I Hst Hs. destruct (step_effect E n (OInvalidate o) s s' I Hst) as (Hl & [_ _ _ H1 H2 _ _ H3 H4] & _).
  { left. eauto. }
  split_and!; try done.
  - intros w. apply H1. tauto.
  - intros w. rewrite H2. tauto.
  - cbn [step] in Hs. destruct (live_promise s o I Hl) as (d & a & Hp). rewrite Hp in Hs.
    destruct (invalidate_ok (e_dbg E) (prio E s 0) a (ch s) (ci_sync _ _ (i_c _ I))) as (C & c' & Heq & Hpr & _).
    rewrite Heq in Hs. cbn in Hs. injection Hs as <-. cbn. unfold number_of_known.
    f_equal. apply map_eq. intros x. rewrite (pn_known _ _ _ _ _ Hpr). rewrite bool_decide_eq_false_2; [done|set_solver].
Qed.

Lemma purge_exact s n o :
  Inv s → live s o →
  ∃ s', step E n (OPurge o) s = Done OutUnit s' ∧
    ¬ knows s' o ∧ cached s' o = None ∧ state_of s' o = None ∧
    (∀ w, affected s o w → cached s' w = None) ∧
    (∀ w, ¬ affected s o w → cached s' w = cached s w) ∧
    (∀ w, w ≠ o → state_of s' w = state_of s w ∧ (knows s' w ↔ knows s w)) ∧
    (∀ u w, depends s' u w ↔ depends s u w ∧ ¬ affected s o u ∧ ¬ affected s o w).
Proof.
  intros I Hl. destruct (purge_effect E n o s I Hl) as (s' & Hs & [H1 H2 H3 H4 H5 H6 _ _ _]).
  exists s'. split_and!; try done.
  - rewrite H5. tauto.
  - apply H1. apply rtc_refl.
  - by apply H3.
  - intros w Hne. split; [by apply H4|]. rewrite H5. split; [tauto|]. intros ?. split; [done|by intros ->].
Qed.

Lemma clear_artifacts_exact s n :
  reachable E s →
  ∃ s', step E n OClearArtifacts s = Done OutUnit s' ∧
    (∀ w, cached s' w = None) ∧ (∀ u w, ¬ depends s' u w) ∧
    (∀ w, state_of s' w = state_of s w) ∧ (∀ w, knows s' w ↔ knows s w) ∧
    (∀ w, live s' w ↔ live s w) ∧
    (∀ m h w r s2, live s w → how_legal E h = true → step E m (OGet h w) s' = Done r s2 → calls s w < calls s2 w).
Proof.
  intros [I Hst]%reach_Inv. destruct (clear_artifacts_effect E n s) as [Hs [H1 _ _ H4 H5 H6 _ H8 H9]].
  destruct (step_Inv E _ _ _ _ _ I Hst Hs) as [I' _].
  eexists. split; [exact Hs|]. split_and!.
  - intros w. by apply H1.
  - intros u w. rewrite H6. tauto.
  - intros w. apply H4; tauto.
  - intros w. rewrite H5. tauto.
  - done.
  - intros m h w r s2 Hl Hh Hg. rewrite <- H9.
    pose proof (get_hit_or_miss m h w _ I' Hl Hh) as Hm. rewrite H1 in Hm by done. eapply Hm. exact Hg.
Qed.

Lemma clear_all_fresh s n :
  ∃ s', step E n OClearAll s = Done OutUnit s' ∧ ch s' = ch init_st ∧
    objs s' = objs s ∧ alive s' = alive s ∧
    (∀ w, cached s' w = None ∧ state_of s' w = None ∧ ¬ knows s' w) ∧ number_of_known (ch s') = 0.
Proof.
  destruct (clear_all_effect E n s) as [Hs [H1 _ H3 _ H5 _ _ _ _]].
  eexists. split; [exact Hs|]. split_and!; try done.
  intros w. split_and!; [by apply H1|by apply H3|]. rewrite H5. tauto.
Qed.

Lemma gc_exact s n r s' :
  Inv s → step E n OGc s = Done r s' →
  let gone w := knows s w ∧ ¬ live s w ∧ ∀ u, ¬ depends s u w in
  (∀ w, gone w → cached s' w = None ∧ state_of s' w = None ∧ ¬ knows s' w) ∧
  (∀ w, ¬ gone w → cached s' w = cached s w ∧ state_of s' w = state_of s w ∧ (knows s' w ↔ knows s w)) ∧
  (∀ u w, depends s' u w ↔ depends s u w ∧ ¬ gone u ∧ ¬ gone w).
Proof.
  intros I Hs. destruct (gc_done_effect E n s r s' I Hs) as [_ [H1 H2 H3 H4 H5 H6 _ _ _]]. cbn. split_and!.
  - intros w Hg. split_and!; [by apply H1|by apply H3|]. rewrite H5. tauto.
  - intros w Hg. split_and!; [by apply H2|by apply H4|]. rewrite H5. tauto.
  - done.
Qed.

Lemma gc_panic_atomic s n k s' :
  Inv s → stack s = [] → step E n OGc s = Panic k s' → k = PkGcIndex ∧ ch s' = ch s ∧ s' = tock s.
Proof.
  intros I Hst Hs. destruct (gc_ok (e_dbg E) (prio E s) (alive s) (objs s) (ch s) (i_c _ I)) as [Hok Hno].
  cbn [step] in Hs. destruct (decide (leafs (ch s) ⊆ dom (known (ch s)))) as [Hsub|Hsub].
  - destruct (Hok Hsub) as (D & c' & Heq' & _). by rewrite Heq' in Hs.
  - rewrite (Hno Hsub) in Hs. cbn in Hs. injection Hs as <- <-. rewrite set_ch_id. done.
Qed.

Lemma gc_safe s n s' w :
  Inv s → stack s = [] → (∃ r, step E n OGc s = Done r s') ∨ (∃ k, step E n OGc s = Panic k s') → live s w →
  cached s' w = cached s w ∧ state_of s' w = state_of s w ∧ (knows s' w ↔ knows s w) ∧ live s' w.
Proof.
  intros I Hst [[r Hs]|[k Hs]] Hl.
  - destruct (gc_done_effect E n s r s' I Hs) as [_ [H1 H2 H3 H4 H5 H6 _ H7 _]].
    split_and!; [apply H2; tauto|apply H4; tauto| |by apply H7]. rewrite H5. tauto.
  - destruct (gc_panic_atomic s n k s' I Hst Hs) as (_ & _ & ->). done.
Qed.

Lemma mut_panics_iff s n o f :
  Inv s → stack s = [] → live s o → e_kind E = Boxed →
  ((∃ s', step E n (OLookupMut o f) s = Panic PkCounterpart s') ↔ ∃ u, u ≠ o ∧ depends s u o) ∧
  ((∃ s', step E n (OGetMut o f) s = Panic PkCounterpart s') ↔ ∃ u, u ≠ o ∧ depends s u o).
Proof.
  intros I Hst Hl Hk.
  assert (∀ x s', (x = OLookupMut o f ∨ x = OGetMut o f) → step E n x s = Panic PkCounterpart s' →
    ∃ u, u ≠ o ∧ depends s u o) as Hfrom.
  { intros x s' Hx Hs. destruct (step_panic E n x s _ s' I Hst Hs) as [[? _]|[(? & _)|[(o' & f' & d & a & Hx' & Hp & Hy) _]]];
      [done|naive_solver|].
    assert (o' = o) as -> by (destruct Hx as [->| ->], Hx' as [[=]|[=]]; done).
    by eapply other_dependent. }
  split; split.
  - intros [s' Hs]. eapply Hfrom; [|exact Hs]. auto.
  - apply (op_lookup_mut_effect E n o f s I Hst Hl Hk).
  - intros [s' Hs]. eapply Hfrom; [|exact Hs]. auto.
  - apply (op_get_mut_effect E n o f s I Hst Hl Hk).
Qed.

Lemma get_mut_effect s n o f :
  Inv s → stack s = [] → live s o → e_kind E = Boxed → (∀ u, ¬ depends s u o) →
  match cached s o with
  | Some b => ∃ s', step E n (OGetMut o f) s = Done (OutRes (RvVal (bin_val b))) s' ∧ writes s o f s'
  | None => ∃ s1, same s s1 ∧
      match step E n (OGet HRef o) s1 with
      | Done (OutRes (RvVal v)) s2 =>
          ∃ s', step E n (OGetMut o f) s = Done (OutRes (RvVal v)) s' ∧ writes s2 o f s'
      | x => step E n (OGetMut o f) s = x
      end
  end.
Proof.
  intros I Hst Hl Hk Hno. destruct (op_get_mut_effect E n o f s I Hst Hl Hk) as (_ & H2 & H3).
  destruct (cached s o) as [b|] eqn:Hc.
  - destruct (H2 b Hno eq_refl) as (s' & ? & ? & _). eauto.
  - destruct H3 as (s1 & _ & _ & _ & _ & Hs & Hm); [intros u Hu; by apply Hno in Hu|auto|].
    exists s1. split; [destruct Hs as [[_ ?]|[Hd _]]; [done|by apply Hno in Hd]|].
    destruct (step E n (OGet HRef o) s1) as [[| |[]| | | | |] s2| | |]; try done.
    destruct Hm as (s' & ? & ? & _). eauto.
Qed.
End Facts1.
