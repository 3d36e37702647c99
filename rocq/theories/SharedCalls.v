(** Lemmas behind Props27.v: whole calls and histories. *)
From Verif Require Export SharedBuild.
From stdpp Require Import relations.

(** Removing entries. *)
Definition fewer (c c' : cache) : Prop := artifacts c' ⊆ artifacts c ∧ dyn_states c' ⊆ dyn_states c.
Lemma fewer_trans c1 c2 c3 : fewer c1 c2 → fewer c2 c3 → fewer c1 c3.
Proof. intros [? ?] [? ?]. split; by etrans. Qed.
Lemma inv_deps_fewer dbg P b l c c' : inv_deps dbg P b l c = COk c' → fewer c c'.
Proof.
  revert c. induction l as [|d l IH]; intros c; cbn; [by intros [= <-]|].
  case_bool_decide; [apply IH|]. destruct (dependents c !! d) as [X|]; [|done].
  destruct (_ && _); [done|]. case_bool_decide; intros Hx%IH; (eapply fewer_trans; [|exact Hx]); done.
Qed.
Lemma inv_loop_fewer fuel dbg pr i P L c c' : inv_loop fuel dbg pr i P L c = COk c' → fewer c c'.
Proof.
  revert i P L c. induction fuel as [|fuel IH]; intros i P [|b L] c; cbn [inv_loop]; try done; try (by intros [= <-]).
  cbn zeta. destruct (inv_deps _ _ _ _ _) as [c3|k c3|] eqn:Hd; [|done..]. intros Hl%IH. apply inv_deps_fewer in Hd as [H1 H2]. cbn in H1, H2.
  eapply fewer_trans; [|exact Hl]. split; cbn; [|done]. etrans; [apply delete_subseteq|done].
Qed.
Lemma stored_fewer c c' : fewer c c' → stored c' ⊆ stored c.
Proof.
  intros [H1 H2] w. unfold stored. rewrite !elem_of_union, !elem_of_union_list. intros [(X & HX & Hw)|(X & HX & Hw)]; [left|right]; exists X; (split; [|done]);
    apply elem_of_list_fmap in HX as ([a e] & -> & He); apply elem_of_map_to_list in He; apply elem_of_list_fmap; exists (a, e); (split; [done|]);
    apply elem_of_map_to_list; by eapply lookup_weaken.
Qed.

Section SharedCalls.
Context (E : env) (fields : bdef → gset obj) (keep : prog → gset obj → gset obj) (T : nat → list sact).
Context (HT : ∀ t d, XNew d ∈ T t → fair E fields keep d).
Notation prim := (prim E).
Notation prims := (rtc prim).
Notation r_others := (r_others (e_ask E)).
Notation tget := (tget (e_ask E) (e_kind E)).
Notation tbuild := (tbuild (e_ask E) (e_kind E)).
Notation trun := (trun (e_ask E) (e_kind E)).
Notation tcall := (tcall (e_ask E) (e_kind E)).
Notation settled_down := (settled_down fields).
Notation may := (may E fields keep).
Notation fair := (fair E fields keep).
Notation firm := (firm fields).
Notation all_borne := (all_borne fields).
Notation all_fair := (all_fair E fields keep).
Notation tight := (tight fields).
Notation performs_s := (performs_s E fields).
Notation build_s := (build_s E fields keep T).
Notation get_s := (get_s E fields T).
Notation step_s := (step_s E fields keep T).
Notation sruns := (sruns E fields keep T).
Notation turned := (turned E).
Notation sfirm := (sfirm fields).
Notation sfair := (sfair E fields keep).

(** ** [garbage_collection] *)
Lemma gc_scan_s_ok U ls V s A :
  Inv s → stack s = [] → shows s A → firm (U ∪ V) A → all_fair A → NoDup ls →
  match gc_scan_s E fields T U ls V s with
  | (Done l s1, V1) => turned [] s s1 ∧ (∃ A1, r_others [] A A1 ∧ shows s1 A1 ∧ firm (U ∪ V1) A1 ∧ all_fair A1) ∧
     (∀ a, a ∈ ls → is_Some (known (ch s) !! a)) ∧
     (∀ a o, a ∈ ls → known (ch s) !! a = Some o → (a ∈ l → o ∉ alive s1) ∧ (o ∉ alive s → a ∈ l)) ∧
     (∀ a, a ∈ l → a ∈ ls) ∧
     ∀ al, (∀ a o, a ∈ ls → known (ch s) !! a = Some o → (o ∈ al ↔ a ∉ l)) → l = filter (λ a, unreachable al (ch s) a = true) ls
  | (Panic k s1, V1) => k = PkGcIndex ∧ turned [] s s1 ∧ (∃ A1, r_others [] A A1 ∧ shows s1 A1 ∧ firm (U ∪ V1) A1 ∧ all_fair A1) ∧
     ∃ a, a ∈ ls ∧ known (ch s) !! a = None
  | (NoFuel, _) => True
  | (Illegal, _) => False
  end.
Proof using HT.
  revert V s A. induction ls as [|a ls IH]; intros V s A I Hst H Hf Hg Hnd; cbn [gc_scan_s].
  { split_and!; [apply turned_refl|exists A; split; [apply rtc_refl|done]|set_solver..|done]. }
  apply NoDup_cons in Hnd as [Ha Hnd]. unfold meanwhile_s.
  pose proof (turn_a E fields keep T HT [] (tick s) U V s A I H Hf Hg) as X. rewrite Hst in X.
  specialize (X ltac:(intros ? ?%elem_of_nil; done) ltac:(intros ? ?%elem_of_nil; done)).
  destruct (performs_s U (T (tick s)) V s) as [V1 s1| | |]; try done.
  destruct X as (T1 & I1 & A1 & R1 & H1 & Hf1 & Hg1 & _). change ([] ++ []) with (@nil obj) in R1.
  assert (stack s1 = []) as Hst1 by (by rewrite (tu_stack _ _ _ _ T1)).
  pose proof (tu_ch _ _ _ _ T1) as Hch. rewrite Hch. destruct (known (ch s) !! a) as [o|] eqn:Hka.
  2: { split_and!; [done|done|by exists A1|exists a; split; [left|done]]. }
  pose proof (IH V1 s1 A1 I1 Hst1 H1 Hf1 Hg1 Hnd) as X. rewrite Hch in X.
  destruct (gc_scan_s E fields T U ls V1 s1) as [[l s2|pk s2| |] V2]; try done.
  - destruct X as (T2 & (A2 & R2 & H2) & Y1 & Y2 & Y3 & Y4).
    pose proof (turned_trans _ _ _ _ _ T1 T2) as T3. destruct (ci_known_obj _ _ (i_c _ I) _ _ Hka) as [d Ho].
    assert (a ∉ l) as Hal by (intros Hl; by apply Ha, Y3).
    split; [done|]. split; [exists A2; split; [by etransitivity|done]|]. split_and!.
    + intros b [->|Hb]%elem_of_cons; [eauto|by apply Y1].
    + intros b w [->|Hb]%elem_of_cons Hw.
      * assert (w = o) as -> by congruence. unfold dead. split.
        -- case_bool_decide as Hd; cbn; [by intros ?|]. intros _. apply (tu_dead _ _ _ _ T2); [|done]. exists (d, a). by apply (tu_objs _ _ _ _ T1).
        -- intros Hd. rewrite bool_decide_eq_false_2; [left|]. apply (tu_dead _ _ _ _ T1); [by exists (d, a)|done].
      * assert (b ≠ a) as Hba by (by intros ->). destruct (Y2 b w Hb Hw) as [Z1 Z2]. split.
        -- intros Hl. apply Z1. destruct (dead _ _); [|done]. by apply elem_of_cons in Hl as [?|?].
        -- intros Hd. assert (b ∈ l) as Hb'; [|destruct (dead _ _); [by right|done]]. apply Z2.
           destruct (ci_known_obj _ _ (i_c _ I) _ _ Hw) as [d' Ho']. apply (tu_dead _ _ _ _ T1); [by exists (d', b)|done].
    + intros b Hb. destruct (dead _ _); [|right; by apply Y3]. apply elem_of_cons in Hb as [->|Hb]; [left|right; by apply Y3].
    + intros al Hal2. rewrite filter_cons. pose proof (Hal2 a o (elem_of_list_here _ _) Hka) as Hx.
      assert (l = filter (λ a, unreachable al (ch s) a = true) ls) as Hl.
      { apply Y4. intros b w Hb Hw. rewrite (Hal2 b w (elem_of_list_further _ _ _ Hb) Hw).
        destruct (dead _ _); [|done]. rewrite not_elem_of_cons. split; [tauto|]. intros ?. split; [by intros ->|done]. }
      assert (unreachable al (ch s) a = true ↔ o ∉ al) as Hu.
      { clear -Hka. rewrite unreachable_spec, Hka. split; [by intros (? & [= <-] & ?)|eauto]. }
      destruct (decide (unreachable al (ch s) a = true)) as [Hd|Hd]; rewrite <- Hl.
      * destruct (dead (alive s1) o) eqn:Ho2; [done|]. exfalso. apply Hu in Hd. by apply Hd, Hx.
      * destruct (dead (alive s1) o) eqn:Ho2; [|done]. exfalso. apply Hd, Hu. rewrite Hx. intros Hn. apply Hn. left.
  - destruct X as (-> & T2 & (A2 & R2 & H2) & b & Hb & Hn).
    split; [done|]. split; [by eapply turned_trans|]. split; [exists A2; split; [by etransitivity|done]|]. exists b. split; [by right|done].
Qed.

Lemma sfirm_fewer W c' s : sfirm W s → fewer (ch s) c' → sfirm W (set_ch c' s).
Proof.
  intros [H1 H2 H3] Hc. split; cbn; [done| |exact H3]. etrans; [by apply stored_fewer|done].
Qed.
Lemma gc_reap_s_ok U pr i l V s c' :
  gc_loop (e_dbg E) pr i l (ch s) = COk c' → sfirm (U ∪ V) s → sfair s → snum s → stack s = [] →
  match gc_reap_s E fields T U pr i l V s with
  | (Done r s2, V2) => r = OutUnit ∧ (∃ w, performs E [] w (set_ch c' s) = Some s2) ∧ sfirm (U ∪ V2) s2 ∧ sfair s2
  | (NoFuel, _) => True
  | _ => False
  end.
Proof using HT.
  revert i V s. induction l as [|a l IH]; intros i V s Hl Hf Hg Hn Hst; cbn [gc_reap_s].
  { cbn in Hl. injection Hl as <-. split; [done|]. split; [|done]. exists []. cbn. by destruct s. }
  unfold meanwhile_s. pose proof (turn_ok E fields keep U [] (T (tick s)) V s Hf Hg Hn) as X. rewrite Hst in X.
  specialize (X ltac:(intros ? ?%elem_of_nil; done) ltac:(intros ? ?%elem_of_nil; done) (HT (tick s))).
  destruct (performs_s U (T (tick s)) V s) as [V1 s1| | |] eqn:Hps; try done.
  destruct X as ((w1 & Hp) & Hf1 & Hg1 & Hn1 & _ & _ & Hch & Hst1).
  assert (s = set_ch (ch s) s) as Hs by (by destruct s). rewrite Hs in Hp.
  pose proof (gc_loop_shrinks _ _ _ _ _ _ Hl) as Hsub. pose proof (performs_ch E _ _ _ _ _ _ Hsub Hp) as Hp'.
  rewrite Hch. cbn [gc_loop] in Hl. destruct (invalidate_by_id (e_dbg E) (pr i) a (ch s)) as [c1|k c1|] eqn:Hi; [|done..].
  match goal with |- context [gc_reap_s E fields T U pr (S i) l V1 ?x] => set (s2 := x) end.
  assert (fewer (ch s1) (ch s2)) as Hfw.
  { rewrite Hch. apply inv_loop_fewer in Hi as [F1 F2]. split; cbn; [done|]. etrans; [apply delete_subseteq|done]. }
  pose proof (IH (S i) V1 s2 Hl (sfirm_fewer _ _ _ Hf1 Hfw) Hg1 ltac:(split; apply Hn1) Hst1) as X.
  destruct (gc_reap_s E fields T U pr (S i) l V1 s2) as [[r s3|k s3| |] V3]; try done.
  destruct X as (-> & (w & Hw) & Hf3 & Hg3). split; [done|]. split; [|done].
  exists (w1 ++ w). rewrite (performs_app _ _ _ _ _ _ Hp'). exact Hw.
Qed.
Lemma gc_s_sound U V s A :
  Inv s → stack s = [] → shows s A → firm (U ∪ V) A → all_fair A →
  match gc_s E fields T U V s with
  | (Done r s', V') => Inv s' ∧ stack s' = [] ∧ r = OutUnit ∧ r_stray A = ∅ ∧ (∃ A1 F A2, r_others [] A A1 ∧
     r_garbage_since A A1 F ∧ r_others [] (r_unknow F (r_forget F A1)) A2 ∧ shows s' (r_tock A2) ∧ firm (U ∪ V') (r_tock A2) ∧ all_fair (r_tock A2))
  | (Panic k s', V') => Inv s' ∧ k = PkGcIndex ∧ r_stray A ≠ ∅ ∧ ∃ A1, r_others [] A A1 ∧ shows s' (r_tock A1) ∧ firm (U ∪ V') (r_tock A1) ∧ all_fair (r_tock A1)
  | (NoFuel, _) => True
  | (Illegal, _) => False
  end.
Proof using HT.
  intros I Hst H Hf Hg. unfold gc_s. rewrite (gc_check_ok _ _ (i_c _ I)), andb_false_r.
  set (ls := iter_order (prio E s 0 0) (leafs (ch s))).
  pose proof (gc_scan_s_ok U ls V s A I Hst H Hf Hg (NoDup_iter_order _ _)) as X.
  assert (∀ a, a ∈ ls ↔ a ∈ leafs (ch s)) as Hls by (intros a; apply elem_iter_order).
  destruct (gc_scan_s E fields T U ls V s) as [[l s1|k s1| |] V1] eqn:Hsc; try done.
  2: { destruct X as (-> & T1 & (A1 & R1 & H1 & Hf1 & Hg1) & a & Ha & Hn).
    split; [exact (prim_Inv E _ _ (pm_tick E s1) (prims_Inv E _ _ (tu_prims _ _ _ _ T1) I))|]. split; [done|].
    split; [|exists A1; split_and!; [done|by apply shows_tock|by apply firm_tock|exact Hg1]].
    rewrite (stray_sub s A H). intros Hs. apply Hls, Hs, elem_of_dom in Ha as [? ?]. congruence. }
  destruct X as (T1 & (A1 & R1 & H1 & Hf1 & Hg1) & Y1 & Y2 & Y3 & Y4).
  pose proof (prims_Inv E _ _ (tu_prims _ _ _ _ T1) I) as I1. pose proof (tu_ch _ _ _ _ T1) as Hch.
  assert (leafs (ch s) ⊆ dom (known (ch s))) as Hsub.
  { intros a Ha. apply elem_of_dom, Y1. by apply Hls. }
  assert (r_stray A1 = ∅) as Hs1 by (by rewrite (stray_sub s1 A1 H1), Hch).
  assert (r_stray A = ∅) as Hs0 by (by rewrite (stray_sub s A H)).
  (* what was seen alive, or is alive *)
  set (al := alive s1 ∪ list_to_set (snd <$> filter (λ x, x.1 ∉ l) (map_to_list (known (ch s))))).
  assert (∀ a o, known (ch s) !! a = Some o → o ∈ al ↔ o ∈ alive s1 ∨ a ∉ l) as Hal.
  { intros a o Hk. unfold al. rewrite elem_of_union, elem_of_list_to_set, elem_of_list_fmap. split; (intros [?|Hx]; [by left|right]).
    - destruct Hx as ([a' o'] & Heq & [Hn Hx]%elem_of_list_filter). cbn in *. subst o'. apply elem_of_map_to_list in Hx.
      destruct (ci_known_obj _ _ (i_c _ I) _ _ Hx) as [d' Ho']. destruct (ci_known_obj _ _ (i_c _ I) _ _ Hk) as [d Ho]. congruence.
    - exists (a, o). split; [done|]. apply elem_of_list_filter. split; [done|]. by apply elem_of_map_to_list. }
  assert (l = filter (λ a, unreachable al (ch s) a = true) ls) as Hl.
  { apply Y4. intros a o Ha Hk. rewrite (Hal a o Hk). destruct (Y2 a o Ha Hk) as [Z1 Z2]. destruct (decide (a ∈ l)); naive_solver. }
  set (sa := set_alive al s1).
  assert (Inv sa) as Ia.
  { split; try apply I1.
    - intros o. cbn. unfold al. rewrite elem_of_union, elem_of_list_to_set, elem_of_list_fmap. intros [Ho|([a o'] & -> & [_ Hx]%elem_of_list_filter)].
      + by apply (i_alive _ I1).
      + apply elem_of_map_to_list in Hx. rewrite <- Hch in Hx. destruct (ci_known_obj _ _ (i_c _ I1) _ _ Hx) as [d Ho]. cbn. eauto.
    - intros o o' d d' a Hp Hp'. cbn. apply (i_addr _ I1).
      + destruct Hp as [Ho|Hk]; [|by right]. cbn in Ho. unfold al in Ho. rewrite elem_of_union, elem_of_list_to_set, elem_of_list_fmap in Ho.
        destruct Ho as [?|([a' w] & -> & [_ Hx]%elem_of_list_filter)]; [by left|right]. apply elem_of_map_to_list in Hx. exists a'. by rewrite Hch.
      + destruct Hp' as [Ho|Hk]; [|by right]. cbn in Ho. unfold al in Ho. rewrite elem_of_union, elem_of_list_to_set, elem_of_list_fmap in Ho.
        destruct Ho as [?|([a' w] & -> & [_ Hx]%elem_of_list_filter)]; [by left|right]. apply elem_of_map_to_list in Hx. exists a'. by rewrite Hch.
    - intros o. cbn. rewrite (tu_stack _ _ _ _ T1), Hst. by intros ?%elem_of_nil. }
  pose proof (shows_live s1 A1 al H1) as Ha. fold sa in Ha. destruct (garbage_ex (r_set_live al A1)) as [F HF].
  destruct (gc_shows E 0 sa _ F Ia Ha Hs1 HF) as (s2 & Hs2 & H2).
  cbn [step] in Hs2. assert (garbage_collection (e_dbg E) (prio E sa) (alive sa) (ch sa) = gc_loop (e_dbg E) (prio E s) 1 l (ch s)) as Hgg.
  { rewrite (gc_order _ _ (prio E s) _ _ _ (i_c _ Ia)). cbn [sa alive ch set_alive]. rewrite Hch. unfold garbage_collection.
    rewrite (gc_check_ok _ _ (i_c _ I)), andb_false_r. fold ls. rewrite <- Hl.
    assert (forallb (is_known (ch s)) ls = true) as ->; [|done]. apply forallb_forall. intros a Hin%elem_of_list_In.
    apply bool_decide_eq_true. by apply Y1. }
  rewrite Hgg in Hs2. destruct (gc_loop (e_dbg E) (prio E s) 1 l (ch s)) as [c'|k c'|] eqn:Hgl; [|done..].
  cbn [lift] in Hs2. injection Hs2 as Hs2.
  assert (Inv (set_ch c' s1)) as I2.
  { assert (Inv (tock (set_ch c' sa))) as I2.
    { assert (step E 0 OGc sa = Done OutUnit (tock (set_ch c' sa))) as Hs3 by (cbn [step]; by rewrite Hgg).
      by destruct (step_Inv E 0 OGc sa _ _ Ia ltac:(cbn; rewrite (tu_stack _ _ _ _ T1); exact Hst) Hs3). }
    split; try apply I2.
    - apply I1.
    - intros o o' d d' a Hp Hp'. apply (i_addr _ I2).
      + destruct Hp as [Ho|Hk]; [left; cbn in *; unfold al; set_solver|by right].
      + destruct Hp' as [Ho|Hk]; [left; cbn in *; unfold al; set_solver|by right].
    - intros o. cbn. rewrite (tu_stack _ _ _ _ T1), Hst. by intros ?%elem_of_nil. }
  assert (shows (set_ch c' s1) (r_unknow F (r_forget F A1))) as H3.
  { rewrite <- Hs2 in H2. apply (shows_live _ _ (alive s1)) in H2. destruct H2 as [Q1 Q2 Q3 Q4 Q5 Q6 Q7 Q8 Q9 Q10 Q11].
    split; try done; [exact (sh_live _ _ H1)|exact (sh_tick _ _ H1)]. }
  pose proof (gc_reap_s_ok U (prio E s) 1 l V1 s1 c' ltac:(by rewrite Hch) (proj1 (firm_sfirm _ _ s1 A1 I1 H1) Hf1) (proj1 (fair_sfair _ _ _ s1 A1 H1) Hg1) (Inv_snum s1 I1) ltac:(by rewrite (tu_stack _ _ _ _ T1))) as Z.
  destruct (gc_reap_s E fields T U (prio E s) 1 l V1 s1) as [[r s3|k s3| |] V3] eqn:Hre; try done.
  destruct Z as (-> & (w & Hw) & Hf3 & Hg3).
  assert (stack (set_ch c' s1) = []) as Hst2 by (cbn; by rewrite (tu_stack _ _ _ _ T1)).
  destruct (performs_ok E [] w (set_ch c' s1) s3 _ I2 H3 Hw) as (T2 & A2 & R2 & H4). rewrite Hst2 in R2.
  pose proof (prims_Inv E _ _ (tu_prims _ _ _ _ T2) I2) as I3.
  split; [exact (prim_Inv E _ _ (pm_tick E s3) (prims_Inv E _ _ (tu_prims _ _ _ _ T2) I2))|].
  split; [cbn; by rewrite (tu_stack _ _ _ _ T2)|]. split; [done|]. split; [done|].
  exists A1, F, A2. split; [done|]. split; [|split_and!; [done|by apply shows_tock|by apply firm_tock, (firm_sfirm _ _ s3 A2)|by apply (fair_sfair _ _ _ s3 A2)]].
  split.
  - intros z Hz. apply HF in Hz as (Hz1 & Hz2 & Hz3). cbn in *. split_and!; [done| |done].
    rewrite (sh_live _ _ H1). unfold al in Hz2. clear -Hz2. set_solver.
  - intros z Hz1 Hz2 Hz3. apply HF. cbn. rewrite (sh_known _ _ H) in Hz1. rewrite (sh_live _ _ H) in Hz2.
    assert (∀ u, ¬ depends s u z) as Hnd by (intros u Hu; by apply (Hz3 u), (sh_deps _ _ H)).
    split; [by rewrite (sh_known _ _ H1), (turned_knows _ _ _ _ _ I T1)|].
    destruct Hz1 as (d & a & Ho & Hk).
    assert (a ∈ ls) as Hleaf.
    { apply Hls, (ci_leaf _ _ (i_c _ I)); [by rewrite Hk|]. intros y Hy.
      destruct (dep_rel_depends s a y I Hy) as (u & z' & du & dw & _ & _ & _ & Hkz & Hdep). apply (Hnd u). by assert (z' = z) as <- by congruence. }
    split.
    + rewrite (Hal a z Hk). destruct (Y2 a z Hleaf Hk) as [W1 W2]. specialize (W2 Hz2). clear -W1 W2. naive_solver.
    + intros u Hu. apply (sh_deps _ _ H1), (turned_depends _ _ _ _ _ _ I T1) in Hu. by apply (Hnd u).
Qed.


(** ** The other calls *)
Lemma may_mono U U' x : U ⊆ U' → may U x → may U' x.
Proof.
  intros HU. destruct x as [d|o|h o|o f|h o|o f|o|o f|o|o|o| | | |o| ]; cbn [Owned.may]; try done; try (by intros ?%HU).
  - intros [H1 H2]. split; [by etrans|done].
  - intros [H1 H2]. split; [by apply HU|done].
  - intros (H1 & H2 & H3). split_and!; [by apply HU|done|]. intros v. etrans; [apply H3|]. by apply union_mono_r.
  - intros [H1 H2]. split; [by apply HU|done].
  - intros (H1 & H2 & H3). split_and!; [by apply HU|done|]. intros v. etrans; [apply H3|]. by apply union_mono_r.
  - intros (H1 & H3). split_and!; [by apply HU|]. intros v. etrans; [apply H3|]. by apply union_mono_r.
Qed.

Definition well_s (U : gset obj) (x : op) (A0 : ref) (z : outcome out * gset obj) : Prop :=
  match z with
  | (Done r s', V') => Inv s' ∧ stack s' = [] ∧ ∃ A', tcall x A0 (Returned r) A' ∧ shows s' A' ∧ firm (U ∪ mentions_out r ∪ V') A' ∧ all_fair A'
  | (Panic k s', V') => ∃ A', tcall x A0 (Panicked k) A' ∧ (k ≠ PkCounterpart → Inv (unwound s') ∧ shows s' A' ∧ firm (U ∪ V') A' ∧ all_fair A')
  | (NoFuel, _) => True
  | (Illegal, _) => False
  end.
Lemma borrows_held U x o : may U x → o ∈ borrows x → o ∈ U.
Proof.
  intros Hm Ho. destruct x; cbn in Ho, Hm; try (by apply elem_of_nil in Ho); apply elem_of_list_singleton in Ho as ->; naive_solver.
Qed.

Lemma simple_well_s U V x A A0 s n :
  Inv s → stack s = [] → shows s A → firm (U ∪ V) A → all_fair A → may U x →
  (∀ h o, x ≠ OGet h o) → (∀ o f, x ≠ OGetMut o f) → (∀ d, x ≠ OAlloc d) → x ≠ OGc → r_others (borrows x) A0 A →
  well_s U x A0 (step E n x s, V).
Proof.
  intros I Hst H Hf Hg Hm Hx1 Hx2 Hx3 Hx4 R. assert (may (U ∪ V) x) as Hm' by (eapply may_mono; [apply union_subseteq_l|exact Hm]).
  pose proof (simple_legal E fields keep _ x A s n I H Hf Hm' Hx1 Hx2 Hx3) as Hl.
  destruct (step E n x s) as [r s'|k s'| |] eqn:Hs; try done.
  - destruct (step_Inv E n x s r s' I Hst Hs) as [I' Hst']. do 2 (split; [done|]).
    destruct (call_sound E x A s n (Returned r) s' I Hst H Hs) as (A' & Hc & H'). exists A'.
    split; [by eapply tc_call|]. split; [by apply H'|]. destruct (simple_firm E fields keep _ x s A _ _ I H Hf Hg Hm' Hx1 Hx2 Hc) as [F1 F2].
    split; [|done]. eapply firm_sub; [exact F1|]. cbn. clear. set_solver.
  - destruct (call_sound E x A s n (Panicked k) s' I Hst H Hs) as (A' & Hc & H'). exists A'.
    split; [by eapply tc_call|]. intros Hk. split.
    { destruct (step_panic E n x s k s' I Hst Hs) as [[-> I']|[(-> & _ & -> & _)|[_ ->]]]; [done| |done]. by apply Inv_unwound, Inv_tock. }
    split; [apply H'; congruence|]. destruct (simple_firm E fields keep _ x s A _ _ I H Hf Hg Hm' Hx1 Hx2 Hc) as [F2 G2]. split; [|done].
    cbn in F2. by rewrite (right_id_L ∅ (∪)) in F2.
Qed.

Lemma get_mut_s_sound U V o f A A0 s n :
  Inv s → stack s = [] → shows s A → firm (U ∪ V) A → all_fair A → may U (OGetMut o f) → r_others [o] A0 A →
  well_s U (OGetMut o f) A0 (get_mut_s E fields keep T n U V o f s).
Proof using HT.
  intros I Hst H Hf Hg (HoU & Hkd & Hfm) R'. unfold get_mut_s. rewrite Hkd.
  assert (o ∈ r_live A) as Hl by (apply (fm_held _ _ _ Hf); by apply elem_of_union_l).
  destruct (firm_live_who s A o I H Hl) as (d & a & Hp). rewrite Hp.
  destruct (used_dec A o) as [(u & Hu & Hud)|Hno].
  { destruct (lookup_mut_panics E s A o d a u I H Hp Hu Hud) as (c & Hc). rewrite Hc. unfold op_get_mut. rewrite Hkd, Hp, Hc.
    exists A. split; [|done]. eapply tc_call; [done|done|exact R'|]. eapply rc_mut_used; [left; eauto|done|done|exact Hu|exact Hud]. }
  destruct (lookup_mut_shows E s A o d a I Hst H Hp Hno) as (c & Hlm & I1 & H1). rewrite Hlm.
  destruct (r_art (r_prepare o A) !! o) as [b|] eqn:Hb.
  { destruct (get_mut_at E s A o d a f I Hst H Hp Hkd Hno) as (s1 & _ & _ & _ & _ & X). rewrite Hb in X. destruct X as (s2 & Hs2 & H2).
    specialize (Hs2 n). cbn [step] in Hs2. rewrite Hs2. destruct (step_Inv E n (OGetMut o f) s _ _ I Hst Hs2) as [I2 Hst2].
    do 2 (split; [done|]). eexists. split; [eapply tc_call; [done|done|exact R'|by eapply rc_get_mut_hit]|]. split; [exact H2|]. split.
    - apply (firm_sub fields (U ∪ V ∪ mentions (bin_val b))); [|cbn; clear; set_solver].
      apply firm_tock, firm_tock. apply firm_more; [eapply (firm_write _ _ U); [by apply firm_prepare|apply union_subseteq_l|done]|].
      intros w Hw. change (r_live (r_write o f (r_prepare o A))) with (r_live (r_prepare o A)). rewrite prepare_live.
      apply (fm_stored _ _ _ Hf). left. exists o, b. split; [by apply prepare_art|exact Hw].
    - exact (prepare_fair E fields keep o A Hg). }
  set (s1 := tock (set_ch c s)) in *. assert (cached s1 o = None) as Hc by (rewrite <- (sh_art _ _ H1); exact Hb).
  pose proof (build_s_sound E fields keep T HT n U V o s1 d a _ I1 H1) as X. assert (stack s1 = []) as Hst1 by exact Hst. rewrite Hst1 in X.
  specialize (X ltac:(by apply firm_tock, firm_spoil, firm_prepare) (prepare_fair E fields keep o A Hg) ltac:(intros ? ?%elem_of_nil; done)
    ltac:(exists o; split; [done|apply rtc_refl]) Hp Hc).
  destruct (build_s n U V o s1) as [[[e|e] s2|k s2| |] V2] eqn:Hbd; try done.
  - destruct X as ([I2 _] & Hst2 & Hp2 & Hty & A' & Hr & H2 & Hf2 & Hg2). rewrite (Hty e eq_refl), N.eqb_refl. split.
    { apply Inv_set_ch; [done|done|by apply CInv_write_art, I2|]. intros x y ?. right; eauto. }
    split; [done|]. exists (r_write o f A'). split.
    { eapply tc_get_mut; [exact R'|done|exact Hl|exact Hno|reflexivity|exact Hb|]. apply tbuild_spoil in Hr. exact Hr. }
    split; [by apply (shows_write s2 A' o d a f)|]. split; [|done]. eapply (firm_write _ _ U); [exact Hf2|clear; set_solver|exact Hfm].
  - destruct X as ([I2 _] & Hst2 & Hp2 & _ & A' & Hr & H2 & Hf2 & Hg2). do 2 (split; [done|]). exists A'. split; [|done].
    eapply tc_get_mut_err; [exact R'|done|exact Hl|exact Hno|reflexivity|exact Hb|]. apply tbuild_spoil in Hr. exact Hr.
  - destruct X as (-> & I2 & A' & Hr & H2 & Hf2 & Hg2). exists A'. split.
    + eapply tc_get_mut_panic; [exact R'|done|exact Hl|exact Hno|reflexivity|exact Hb|]. apply tbuild_spoil in Hr. exact Hr.
    + intros _. split; [by apply Inv_unwound|done].
Qed.

(** What the others do leaves the cache alone. *)
Record left_alone (A A' : ref) : Prop := {
  la_art : r_art A' = r_art A;
  la_state : r_state A' = r_state A;
  la_known : r_known A' = r_known A;
  la_deps : r_deps A' = r_deps A;
  la_stray : r_stray A' = r_stray A;
}.
Lemma others_alone B A A' : r_others B A A' → left_alone A A'.
Proof.
  induction 1 as [A|A A1 A2 H _ IH]; [by split|]. destruct IH. inversion H; subst; by split.
Qed.
Lemma others_gone B A A' w : r_others B A A' → (w < r_nobj A)%N → w ∉ r_live A → w ∉ r_live A'.
Proof.
  induction 1 as [A|A A1 A2 H _ IH]; [done|]. intros Hlt Hl. apply IH; inversion H; subst; cbn; try done.
  - lia.
  - intros [Hy|Hy]%elem_of_union; [apply elem_of_singleton in Hy; lia|done].
  - by intros [Hy _]%elem_of_difference.
Qed.
Record numbered (A : ref) : Prop := {
  nu_known : ∀ w, w ∈ r_known A → (w < r_nobj A)%N;
  nu_live : ∀ w, w ∈ r_live A → (w < r_nobj A)%N;
}.
(** Who is there at the end was not dropped. *)
Lemma others_keep B X A A' : r_others B A A' → numbered A → (∀ w, w ∈ X → w ∈ r_live A') → r_others X A A'.
Proof.
  induction 1 as [A|A A1 A2 H R IH]; intros [Hk Hl] HX; [apply rtc_refl|].
  assert (numbered A1) as Hn1.
  { inversion H; subst; split; cbn; try done.
    - intros y Hy%Hk. lia.
    - intros y [->%elem_of_singleton|Hy%Hl]%elem_of_union; lia.
    - intros y [Hy%Hl _]%elem_of_difference. done. }
  eapply rtc_l; [|by apply IH]. inversion H; subst; constructor; try done.
  intros Hin. apply HX in Hin. revert Hin. eapply others_gone; [exact R|cbn; by apply Hl|].
  cbn. rewrite elem_of_difference, elem_of_singleton. tauto.
Qed.

Lemma call_s_sound U V x A A0 s n :
  Inv s → stack s = [] → shows s A → firm (U ∪ V) A → all_fair A → may U x → r_others (elements U) A0 A → numbered A0 →
  well_s U x A0 (step_s n U V x s).
Proof using HT.
  intros I0 Hst0 H0 Hf0 Hg0 Hm R0 Hk0. unfold Shared.step_s, meanwhile_s.
  pose proof (turn_a E fields keep T HT (elements U) (tick s) U V s A I0 H0 Hf0 Hg0) as X. rewrite Hst0, app_nil_r in X.
  specialize (X ltac:(intros ? ?%elem_of_nil; done)
    ltac:(intros w Hw%elem_of_elements; exists w; split; [done|apply rtc_refl])).
  destruct (performs_s U (T (tick s)) V s) as [V1 s1| | |]; try done.
  destruct X as (T1 & I & A1 & R1 & H & Hf & Hg & _ & _). assert (r_others (elements U) A0 A1) as R by (by etransitivity). clear R0 R1.
  assert (stack s1 = []) as Hst by (by rewrite (tu_stack _ _ _ _ T1)). clear dependent A. clear T1 I0 Hst0 s V. rename s1 into s, V1 into V, A1 into A.
  assert (r_others (borrows x) A0 A) as R'.
  { eapply others_mono; [|exact R]. intros o Ho. apply elem_of_elements. by eapply borrows_held. }
  assert ((∀ h o, x ≠ OGet h o) → (∀ o f, x ≠ OGetMut o f) → (∀ d, x ≠ OAlloc d) → x ≠ OGc → well_s U x A0 (step E n x s, V)) as Hsimple.
  { intros. by eapply simple_well_s. }
  destruct x as [d|o|h o|o f|h o|o f|o|o f|o|o|o| | | |o| ]; try (by apply Hsimple).
  - pose proof (alloc_iff E s A d I H) as Ha. destruct (alloc E d s) as [[o s1]|] eqn:Hal; [|done].
    destruct Ha as (Hfr & -> & H1). destruct (alloc_Some _ _ _ _ _ Hal) as (_ & Hst1 & _).
    assert (rcall (e_ask E) (e_kind E) (OAlloc d) A (Returned (OutObj (r_nobj A))) (r_alloc d (e_ask E (r_tick A)) A)) as Hc by (by constructor).
    split; [eapply (prim_Inv E); [eapply pm_alloc; exact Hal|exact I]|]. split; [by rewrite <- Hst; subst s1|].
    eexists. split; [eapply tc_call; [done|done|exact R'|exact Hc]|]. split; [exact H1|].
    assert (may (U ∪ V) (OAlloc d)) as Hm' by (eapply may_mono; [apply union_subseteq_l|exact Hm]).
    destruct (simple_firm E fields keep _ (OAlloc d) s A _ _ I H Hf Hg Hm' ltac:(done) ltac:(done) Hc) as [F1 F2]. split; [|done].
    eapply firm_sub; [exact F1|]. cbn. clear. set_solver.
  - destruct Hm as [Ho Hh].
    pose proof (get_s_sound E fields keep T HT (build_s n) U V h o s A (build_s_sound E fields keep T HT n) I H Hf Hg) as X. rewrite Hst in X.
    specialize (X ltac:(intros ? ?%elem_of_nil; done) ltac:(exists o; split; [done|apply rtc_refl]) Hh).
    destruct (get_s (build_s n) U V h o s) as [[r s2|k s2| |] V2]; try done.
    + destruct X as ([I2 _] & Hst2 & A' & Hr & H2 & Hf2 & Hg2). do 2 (split; [done|]). exists A'. split; [by eapply tc_get|]. done.
    + destruct X as (-> & I2 & A' & Hr & H2 & Hf2 & Hg2). exists A'. split; [by eapply tc_get_panic|]. intros _. split; [by apply Inv_unwound|done].
  - by eapply get_mut_s_sound.
  - pose proof (gc_s_sound U V s A I Hst H Hf Hg) as X. destruct (others_alone _ _ _ R') as [_ _ L3 L4 L5].
    destruct (gc_s E fields T U V s) as [[r s2|k s2| |] V2]; try done.
    + destruct X as (I2 & Hst2 & -> & Hs & A2 & F & A3 & R2 & HF & R3 & H3 & Hf3 & Hg3). do 2 (split; [done|]). exists (r_tock A3). split.
      { eapply tc_gc; [congruence|by etransitivity|split; [apply HF|]|exact R3]. intros w Hw1 Hw2 Hw3. apply HF.
        - by rewrite L3.
        - eapply others_gone; [exact R'|by apply (nu_known _ Hk0)|done].
        - intros u. by rewrite L4. }
      split; [done|]. split; [|done]. cbn. by rewrite (right_id_L ∅ (∪)).
    + destruct X as (I2 & -> & Hs & A2 & R2 & H2 & Hf2 & Hg2). exists (r_tock A2). split; [apply tc_gc_panic; [congruence|by etransitivity]|].
      intros _. split; [by apply Inv_unwound|done].
Qed.

(** ** Histories *)
Lemma shows_numbered s A : Inv s → shows s A → numbered A.
Proof.
  intros I H. split; intros w Hw; rewrite (sh_nobj _ _ H).
  - rewrite (sh_known _ _ H) in Hw. destruct Hw as (d & a & Ho & _). by apply (i_num _ I) in Ho.
  - rewrite (sh_live _ _ H) in Hw. destruct (i_alive _ I w Hw) as [x Ho]. by apply (i_num _ I) in Ho.
Qed.

Lemma hist_s U V l s :
  sruns U V l s →
  Inv s ∧ stack s = [] ∧ ∃ A0 A, truns (e_ask E) (e_kind E) l A0 ∧ numbered A0 ∧ r_others (elements U) A0 A ∧ shows s A ∧
    firm (U ∪ V) A ∧ all_fair A ∧ tight (U ∪ V) A.
Proof using HT.
  intros Hr.
  induction Hr as [|U V U' V' l s s' Hr IH HU Hs|U V l s n x r s1 V' s' Hr IH Hm Hs Hd|U V l s n x k s1 V' s' Hr IH Hm Hs Hk Hd].
  - split; [exact Inv_init|]. split; [done|]. exists new_ref, new_ref.
    split; [constructor|]. split; [split; intros w Hw; by apply elem_of_empty in Hw|]. split; [apply rtc_refl|]. split; [exact shows_init|]. split.
    + split; [intros w Hw; by apply elem_of_union in Hw as [Hw|Hw]; apply elem_of_empty in Hw| |intros u w Hu; by apply elem_of_empty in Hu].
      intros w [(x & b & Hx & _)|(x & b & Hx & _)]; cbn in Hx; by rewrite lookup_empty in Hx.
    + split; [intros u d a Hu; cbn in Hu; by rewrite lookup_empty in Hu|]. intros w Hw. by apply elem_of_empty in Hw.
  - destruct IH as (I & Hst & A0 & A & HA & Hkn & R & H & Hf & Hg & Ht).
    destruct (settled_hist E fields keep (U' ∪ V') s A I Hst H (firm_sub _ _ _ _ Hf HU) Hg) as (s2 & A' & Hs2 & I2 & Hst2 & R2 & K2 & H2 & Hf2 & Hg2 & Ht2).
    rewrite Hs in Hs2. injection Hs2 as <-. do 2 (split; [done|]). exists A0, A'. split; [done|]. split; [done|]. split; [|done].
    eapply others_keep; [|done|].
    + etransitivity; [eapply (others_mono _ _ []); [|exact R]|eapply (others_mono _ _ []); [|exact R2]]; intros ? ?%elem_of_nil; done.
    + intros w Hw%elem_of_elements. apply (fm_held _ _ _ Hf2). by apply elem_of_union_l.
  - destruct IH as (I & Hst & A0 & A & HA & Hkn & R & H & Hf & Hg & Ht).
    pose proof (call_s_sound U V x A A0 s n I Hst H Hf Hg Hm R Hkn) as X. rewrite Hs in X. destruct X as (I1 & Hst1 & A1 & Hc & H1 & Hf1 & Hg1).
    destruct (settled_hist E fields keep _ s1 A1 I1 Hst1 H1 Hf1 Hg1) as (s2 & A' & Hs2 & I2 & Hst2 & R2 & K2 & H2 & Hf2 & Hg2 & Ht2).
    rewrite Hd in Hs2. injection Hs2 as <-. do 2 (split; [done|]). exists A1, A'. split; [by eapply truns_call|].
    split; [exact (shows_numbered s1 A1 I1 H1)|]. split; [|done]. eapply others_mono; [|exact R2]. intros w. rewrite !elem_of_elements. apply union_subseteq_l.
  - destruct IH as (I & Hst & A0 & A & HA & Hkn & R & H & Hf & Hg & Ht).
    pose proof (call_s_sound U V x A A0 s n I Hst H Hf Hg Hm R Hkn) as X. rewrite Hs in X. destruct X as (A1 & Hc & X).
    assert (k ≠ PkCounterpart) as Hne by (by intros ->). destruct (X Hne) as (I1 & H1 & Hf1 & Hg1).
    destruct (settled_hist E fields keep _ (unwound s1) A1 I1 eq_refl (shows_unwind _ _ H1) Hf1 Hg1) as (s2 & A' & Hs2 & I2 & Hst2 & R2 & K2 & H2 & Hf2 & Hg2 & Ht2).
    rewrite Hd in Hs2. injection Hs2 as <-. do 2 (split; [done|]). exists A1, A'. split; [eapply truns_call; [done|done|congruence]|].
    split; [exact (shows_numbered (unwound s1) A1 I1 (shows_unwind _ _ H1))|]. split; [|done]. eapply others_mono; [|exact R2]. intros w. rewrite !elem_of_elements. apply union_subseteq_l.
Qed.

Lemma next_s U V l s n x :
  sruns U V l s → may U x →
  match step_s n U V x s with
  | (Done r s1, V') => ∃ s', settled_down (U ∪ mentions_out r ∪ V') s1 = Some s'
  | (Panic k s1, V') => k ≠ PkCounterpart → ∃ s', settled_down (U ∪ V') (unwound s1) = Some s'
  | (NoFuel, _) => True
  | (Illegal, _) => False
  end.
Proof using HT.
  intros Hr Hm. destruct (hist_s U V l s Hr) as (I & Hst & A0 & A & HA & Hkn & R & H & Hf & Hg & Ht).
  pose proof (call_s_sound U V x A A0 s n I Hst H Hf Hg Hm R Hkn) as X. destruct (step_s n U V x s) as [[r s1|k s1| |] V']; try done.
  - destruct X as (I1 & Hst1 & A1 & Hc & H1 & Hf1 & Hg1).
    destruct (settled_hist E fields keep _ s1 A1 I1 Hst1 H1 Hf1 Hg1) as (s2 & A' & Hs2 & _). eauto.
  - intros Hne. destruct X as (A1 & Hc & X). destruct (X Hne) as (I1 & H1 & Hf1 & Hg1).
    destruct (settled_hist E fields keep _ (unwound s1) A1 I1 eq_refl (shows_unwind _ _ H1) Hf1 Hg1) as (s2 & A' & Hs2 & _). eauto.
Qed.

End SharedCalls.
