(** Lemmas behind Props27.v: building while others hold and drop blueprints. *)
From Verif Require Export SharedFacts.
From stdpp Require Import relations.

Section SharedBuild.
Context (E : env) (fields : bdef → gset obj) (keep : prog → gset obj → gset obj) (T : nat → list sact).
Context (HT : ∀ t d, XNew d ∈ T t → fair E fields keep d).
Notation prim := (prim E).
Notation prims := (rtc prim).
Notation r_others := (r_others (e_ask E)).
Notation tget := (tget (e_ask E) (e_kind E)).
Notation tbuild := (tbuild (e_ask E) (e_kind E)).
Notation trun := (trun (e_ask E) (e_kind E)).
Notation settled_down := (settled_down fields).
Notation locals := (locals keep).
Notation owns := (owns E fields keep).
Notation fair := (fair E fields keep).
Notation firm := (firm fields).
Notation borne := (borne fields).
Notation all_borne := (all_borne fields).
Notation all_fair := (all_fair E fields keep).
Notation tight := (tight fields).
Notation performs_s := (performs_s E fields).
Notation exec_s := (exec_s E fields keep T).
Notation build_s := (build_s E fields keep T).
Notation get_s := (get_s E fields T).
Notation resolve_s := (resolve_s E fields T).

Lemma part_made s A x y : shows s A → r_part fields A x y ↔ y ∈ made fields s x.
Proof.
  intros H. unfold r_part, Owned.made. rewrite (sh_who _ _ H). destruct (objs s !! x) as [[d a]|]; split.
  - by intros (d' & a' & [= <- <-] & ?).
  - intros Hy. by exists d, a.
  - by intros (d' & a' & ? & _).
  - intros Hy. by apply elem_of_empty in Hy.
Qed.
Lemma firm_sfirm W s A : Inv s → shows s A → firm W A ↔ sfirm fields W s.
Proof.
  intros I H. split.
  - intros [H1 H2 H3]. rewrite (sh_live _ _ H) in H1, H2, H3. split; [exact H1| |].
    + intros w Hw. by apply H2, (stored_iff s A).
    + intros w Hw. apply (parts_iff fields s A w H) in Hw as (u & Hu & Hp). rewrite (sh_live _ _ H) in Hu. by eapply H3.
  - intros [H1 H2 H3]. split; rewrite (sh_live _ _ H).
    + exact H1.
    + intros w Hw. by apply H2, (stored_iff s A).
    + intros u w Hu Hp. apply H3, (parts_iff fields s A w H). exists u. by rewrite (sh_live _ _ H).
Qed.
Lemma tight_stight W s A : Inv s → shows s A → tight W A ↔ stight fields W s.
Proof.
  intros I H. unfold OwnedFacts.tight, stight. setoid_rewrite (stored_iff s A _ I H). setoid_rewrite (parts_iff fields s A _ H). by rewrite (sh_live _ _ H).
Qed.
Lemma borne_sborne W s A w : shows s A → borne W A w ↔ sborne fields W s w.
Proof.
  intros H. unfold OwnedFacts.borne, sborne. split; intros (x & Hx & Hp); exists x; (split; [done|]);
    (eapply rtc_subrel; [|exact Hp]); intros y z; apply (part_made s A y z H).
Qed.
Lemma fair_sfair s A : shows s A → all_fair A ↔ sfair E fields keep s.
Proof. intros H. unfold OwnedFacts.all_fair, sfair. by rewrite (sh_who _ _ H). Qed.
Lemma Inv_snum s : Inv s → snum s.
Proof. intros I. split; [intros o x; apply (i_num _ I)|apply (i_alive _ I)]. Qed.

Lemma turn_a Bl t W V s A :
  Inv s → shows s A → firm (W ∪ V) A → all_fair A → all_borne W A (stack s) → all_borne W A Bl →
  match performs_s W (T t) V s with
  | Done V' s' => turned E Bl s s' ∧ Inv s' ∧ ∃ A', r_others (Bl ++ stack s) A A' ∧ shows s' A' ∧ firm (W ∪ V') A' ∧ all_fair A' ∧
      r_who A ⊆ r_who A' ∧ tight (W ∪ V') A'
  | NoFuel => True
  | _ => False
  end.
Proof using HT.
  intros I H Hf Hg Hst HB. pose proof (turn_ok E fields keep W Bl (T t) V s) as X.
  specialize (X (proj1 (firm_sfirm _ s A I H) Hf) (proj1 (fair_sfair s A H) Hg) (Inv_snum s I)).
  specialize (X ltac:(intros u Hu; by apply (borne_sborne W s A u H), Hst) ltac:(intros u Hu; by apply (borne_sborne W s A u H), HB) (HT t)).
  destruct (performs_s W (T t) V s) as [V' s'| | |]; try done. destruct X as ((w & Hp) & Hf' & Hg' & Hn' & Ht' & Eo & Ec & Es).
  destruct (performs_ok E Bl w s s' A I H Hp) as (T1 & A' & R & H'). pose proof (prims_Inv E _ _ (tu_prims _ _ _ _ T1) I) as I'.
  split; [done|]. split; [done|]. exists A'. split_and!; [done|done|by apply (firm_sfirm _ s' A')|by apply (fair_sfair s' A')| |by apply (tight_stight _ s' A')].
  by rewrite (sh_who _ _ H), (sh_who _ _ H').
Qed.

(** ** Building *)
Definition sound_bs (bld : gset obj → gset obj → obj → st → outcome bres * gset obj) : Prop :=
  ∀ B V o s d a A, Inv s → shows s A → firm (B ∪ V) A → all_fair A → all_borne B A (stack s) → borne B A o →
  promise o s = Some (d, a) → cached s o = None →
  match bld B V o s with
  | (Done r s', V') => grows s s' ∧ stack s' = stack s ∧ promise o s' = Some (d, a) ∧ (∀ e, r = BOk e → ar_ty e = bd_aty d) ∧
      ∃ A', tbuild (stack s) o A (Some (built_res r)) A' ∧ shows s' A' ∧ firm (B ∪ mentions_b r ∪ V') A' ∧ all_fair A'
  | (Panic k s', V') => k = PkUser ∧ Inv s' ∧ ∃ A', tbuild (stack s) o A None A' ∧ shows s' A' ∧ firm (B ∪ V') A' ∧ all_fair A'
  | (NoFuel, _) => True
  | (Illegal, _) => False
  end.

Lemma get_s_sound bld B V h o s A :
  sound_bs bld → Inv s → shows s A → firm (B ∪ V) A → all_fair A → all_borne B A (stack s) → borne B A o → how_legal E h = true →
  match get_s bld B V h o s with
  | (Done r s', V') => grows s s' ∧ stack s' = stack s ∧
      ∃ A', tget (stack s) h o A (Some r) A' ∧ shows s' A' ∧ firm (B ∪ mentions_rv r ∪ V') A' ∧ all_fair A'
  | (Panic k s', V') => k = PkUser ∧ Inv s' ∧ ∃ A', tget (stack s) h o A None A' ∧ shows s' A' ∧ firm (B ∪ V') A' ∧ all_fair A'
  | (NoFuel, _) => True
  | (Illegal, _) => False
  end.
Proof using HT.
  intros Hb I0 H0 Hf0 Hg0 HS0 Ho0 Hh. assert (borne (B ∪ V) A o) as Ho0' by (eapply borne_mono; [|done|exact Ho0]; set_solver).
  pose proof (borne_live _ _ _ _ Hf0 Ho0') as Hl0.
  destruct (firm_live_who s A o I0 H0 Hl0) as (d & a & Hp0).
  unfold Shared.get_s. rewrite Hp0, Hh. apply legal_iff in Hh. unfold meanwhile_s.
  pose proof (turn_a [o] (tick s) B V s A I0 H0 Hf0 Hg0 HS0 ltac:(intros w ->%elem_of_list_singleton; exact Ho0)) as X.
  destruct (performs_s B (T (tick s)) V s) as [V1 s1| | |]; try done.
  destruct X as (T1 & I & A1 & R1 & H & Hf & Hg & Hwho & _). change ([o] ++ stack s) with (o :: stack s) in R1.
  pose proof (prims_grows E _ _ I0 (tu_prims _ _ _ _ T1)) as G0. pose proof (tu_stack _ _ _ _ T1) as Hst.
  assert (promise o s1 = Some (d, a)) as Hp by (eapply turned_promise; [exact T1|exact Hp0|left]).
  assert (all_borne B A1 (stack s1)) as HS by (rewrite Hst; eapply all_borne_mono; [done|exact Hwho|exact HS0]).
  assert (borne B A1 o) as Ho by (eapply borne_mono; [done|exact Hwho|exact Ho0]).
  assert (o ∈ r_live A1) as Hl by (rewrite (sh_live _ _ H); by apply promise_Some in Hp as [? _]).
  rewrite (lookup_art_ok _ o s1 d a I Hp). rewrite <- Hst in *.
  assert (∀ x A', tget (stack s1) h o A1 x A' → tget (stack s1) h o A x A') as Hto by (intros x A' Ht; by eapply tget_others).
  pose proof (live_cached s1 o d a I Hp) as Hc. pose proof (sh_art _ _ H o) as Hra.
  destruct (artifacts (ch s1) !! a) as [e|] eqn:He; cbn in Hc.
  - split; [done|]. split; [done|]. exists A1. split; [apply Hto, tget_hit; [done..|congruence]|]. split; [done|]. split; [|done].
    rewrite conv_mentions. eapply firm_sub; [apply (firm_more fields _ (mentions (bin_val (ar_bin e))) _ Hf)|set_solver].
    intros w Hw. apply (fm_stored _ _ _ Hf). left. exists o, (ar_bin e). split; [congruence|done].
  - pose proof (Hb B V1 o s1 d a A1 I H Hf Hg HS Ho Hp Hc) as X.
    destruct (bld B V1 o s1) as [[[e|e] s2|pk s2| |] V2] eqn:Hbo; try done.
    + destruct X as (G & Hs & _ & Hty & A' & Hr & H' & Hf' & Hg'). rewrite (Hty e eq_refl), N.eqb_refl.
      split; [exact (grows_trans _ _ _ G0 G)|]. split; [done|]. exists A'. split; [apply Hto; eapply tget_built; [done..|congruence|exact Hr]|]. split; [done|]. split; [|done].
      rewrite conv_mentions. exact Hf'.
    + destruct X as (G & Hs & _ & _ & A' & Hr & H' & Hf' & Hg').
      split; [exact (grows_trans _ _ _ G0 G)|]. split; [done|]. exists A'. split; [apply Hto; eapply tget_failed; [done..|congruence|exact Hr]|]. done.
    + destruct X as (-> & I' & A' & Hr & H' & Hf' & Hg'). do 2 (split; [done|]). exists A'. split; [apply Hto; eapply tget_panicked; [done..|congruence|exact Hr]|]. done.
Qed.

Lemma resolve_s_sound bld B V u du ua S h w s A :
  sound_bs bld → Inv s → shows s A → firm (B ∪ V) A → all_fair A → stack s = u :: S → all_borne B A (u :: S) → borne B A w →
  objs s !! u = Some (du, ua) → how_legal E h = true →
  let A0 := r_note (EResolve u w) (r_use u w (r_meet w A)) in
  match resolve_s bld B V u ua h w s with
  | (Done r s', V') => grows s s' ∧ stack s' = u :: S ∧
      ∃ A', tget (u :: S) h w A0 (Some r) A' ∧ shows s' (r_note (EGot u w r) A') ∧ firm (B ∪ mentions_rv r ∪ V') (r_note (EGot u w r) A') ∧ all_fair A'
  | (Panic k s', V') => k = PkUser ∧ Inv s' ∧ ∃ A', tget (u :: S) h w A0 None A' ∧ shows s' A' ∧ firm (B ∪ V') A' ∧ all_fair A'
  | (NoFuel, _) => True
  | (Illegal, _) => False
  end.
Proof using HT.
  intros Hb I H Hf Hg Hst HS Hw Hu Hh A0. assert (borne (B ∪ V) A w) as Hw' by (eapply borne_mono; [|done|exact Hw]; set_solver).
  destruct (firm_live_who s A w I H (borne_live _ _ _ _ Hf Hw')) as (d & wa & Hp).
  unfold Shared.resolve_s. rewrite Hp.
  destruct (shows_track E s A u S du ua w d wa I H Hst Hu Hp) as (c & -> & P1 & H1).
  pose proof (prims_grows E _ _ I P1) as G0. pose proof (proj1 G0) as I1. set (s1 := log (EResolve u w) (set_ch c s)) in *. fold A0 in H1.
  assert (stack s1 = u :: S) as Hst1 by exact Hst.
  pose proof (get_s_sound bld B V h w s1 A0 Hb I1 H1) as X. rewrite Hst1 in X.
  specialize (X ltac:(by apply firm_note, firm_use, firm_meet) Hg HS Hw Hh).
  destruct (get_s bld B V h w s1) as [[r s2|k s2| |] V2]; try done.
  destruct X as (G1 & Hst2 & A' & Hr & H2 & Hf2 & Hg2).
  split; [eapply grows_trans; [exact G0|]; eapply grows_trans; [exact G1|]; split; [by apply Inv_log, G1|done]|].
  split; [done|]. exists A'. split_and!; [done|by apply shows_log|exact (firm_note _ _ (EGot u w r) A' Hf2)|done].
Qed.
Lemma run_s_sound bld u du ua S B :
  sound_bs bld → ∀ p L V s A, Inv s → shows s A → firm (B ∪ L ∪ V) A → all_fair A → stack s = u :: S → all_borne B A (u :: S) →
  objs s !! u = Some (du, ua) → owns (fields du) L p →
  match exec_s bld u ua (bd_sty du) B L p V s with
  | (Done r s', V') => grows s s' ∧ stack s' = u :: S ∧
      ∃ A', trun (u :: S) u p A (Some r) A' ∧ shows s' A' ∧ firm (B ∪ mentions_res r ∪ V') A' ∧ all_fair A'
  | (Panic k s', V') => k = PkUser ∧ Inv s' ∧ ∃ A', trun (u :: S) u p A None A' ∧ shows s' A' ∧ firm (B ∪ V') A' ∧ all_fair A'
  | (NoFuel, _) => True
  | (Illegal, _) => False
  end.
Proof using HT.
  intros Hb p.
  induction p as [r| |h w k IH|k IH|v p IH|k IH|v k IH|d k IH|w p IH]; intros L0 V0 s0 A0 I0 H0 Hf0 Hg0 Hst0 HS0 Hu0 Ho;
    cbn [Shared.exec_s]; cbn zeta; unfold meanwhile_s at 1;
    match goal with |- context [locals ?x L0] => set (q := x) in *; pose proof (locals_sub keep q L0) as HL; set (L := locals q L0) in * end;
    (pose proof (turn_a [] (tick s0) (B ∪ L) V0 s0 A0 I0 H0) as X;
     specialize (X ltac:(eapply firm_sub; [exact Hf0|clear - HL; set_solver]) Hg0
       ltac:(rewrite Hst0; eapply all_borne_mono; [|done|exact HS0]; apply union_subseteq_l) ltac:(intros ? ?%elem_of_nil; done)));
    (destruct (performs_s (B ∪ L) (T (tick s0)) V0 s0) as [V s| | |]; [|done..]);
    destruct X as (T1 & I & A & R1 & H & Hf & Hg & Hwho & _); rewrite Hst0 in R1; change ([] ++ u :: S) with (u :: S) in R1;
    pose proof (prims_grows E _ _ I0 (tu_prims _ _ _ _ T1)) as G0;
    assert (stack s = u :: S) as Hst by (by rewrite (tu_stack _ _ _ _ T1));
    pose proof (tu_objs _ _ _ _ T1 _ _ Hu0) as Hu;
    assert (all_borne B A (u :: S)) as HS by (eapply all_borne_mono; [done|exact Hwho|exact HS0]);
    assert (all_borne (B ∪ L) A (u :: S)) as HSL by (eapply all_borne_mono; [apply union_subseteq_l|exact (reflexivity (r_who A))|exact HS]);
    assert (firm (B ∪ V) A) as HfB by (eapply firm_sub; [exact Hf|clear; set_solver]);
    (assert (∀ w, w ∈ fields du ∪ L → borne (B ∪ L) A w ∧ w ∈ r_live A) as HM;
    [(intros w' Hw'; assert (borne (B ∪ L) A w') as Hbw; [|split; [done|eapply borne_live; [exact Hf|]; eapply borne_mono; [apply union_subseteq_l|exact (reflexivity (r_who A))|exact Hbw]]];
      apply elem_of_union in Hw' as [Hw'|Hw']; [|exists w'; split; [by apply elem_of_union_r|apply rtc_refl]];
      destruct (HSL u ltac:(left)) as (x & Hx & Hp); exists x; split; [done|]; eapply rtc_r; [exact Hp|]; exists du, ua; split; [|done];
      by rewrite (sh_who _ _ H))|]);
    cbn [Owned.owns] in Ho; cbn zeta in Ho; fold q in Ho; fold L in Ho;
    clear T1 Hf0 Hg0 HS0 Hu0 H0 Hst0 I0 Hwho.
  - split; [done|]. split; [done|]. exists A. split; [eapply trun_others; [exact R1|constructor]|]. split; [done|]. split; [|done].
    eapply firm_sub; [apply (firm_more fields _ (mentions_res r) _ HfB)|clear; set_solver]. intros w Hw. by apply HM, Ho.
  - split; [done|]. split; [done|]. exists A. split; [eapply trun_others; [exact R1|constructor]|]. split; [done|]. by split.
  - destruct Ho as (Hw & Hh & Ho). destruct (HM w Hw) as [Hbw _].
    pose proof (resolve_s_sound bld (B ∪ L) V u du ua S h w s A Hb I H Hf Hg Hst HSL Hbw Hu Hh) as X.
    cbn zeta in X. destruct (resolve_s bld (B ∪ L) V u ua h w s) as [[r s1|pk s1| |] V1]; try done.
    + destruct X as (G1 & Hst1 & A1 & Hr1 & H1 & Hf1 & Hg1).
      pose proof (IH r (L ∪ mentions_rv r) V1 s1 _ (proj1 G1) H1 ltac:(eapply firm_sub; [exact Hf1|clear; set_solver]) Hg1 Hst1) as X.
      specialize (X ltac:(eapply all_borne_mono; [done| |exact HS]; exact (grows_who s s1 A _ G1 H H1)) (proj2 G1 _ _ Hu) (Ho r)).
      destruct (exec_s bld u ua (bd_sty du) B _ (k r) V1 s1) as [[r' s2|pk s2| |] V2]; try done.
      * destruct X as (G2 & Hst2 & A2 & Y & Z & F2 & Q2). split; [exact (grows_trans _ _ _ G0 (grows_trans _ _ _ G1 G2))|]. split; [done|]. exists A2.
        split; [|done]. eapply trun_others; [exact R1|]. by eapply trun_resolve.
      * destruct X as (-> & I2 & A2 & Y & Z & F2 & Q2). do 2 (split; [done|]). exists A2. split; [|done]. eapply trun_others; [exact R1|]. by eapply trun_resolve.
    + destruct X as (-> & I1 & A1 & Hr1 & H1 & Hf1 & Hg1). do 2 (split; [done|]). exists A1.
      split; [eapply trun_others; [exact R1|]; by eapply trun_resolve_panic|]. split; [done|]. split; [|done]. eapply firm_sub; [exact Hf1|clear; set_solver].
  - destruct (my_state_at E s u S du ua I Hst Hu) as (v & -> & Hv & _).
    assert (r_state A !! u = Some v) as Hv' by (by rewrite (sh_state _ _ H)).
    assert (firm (B ∪ (L ∪ mentions v) ∪ V) A) as Hf1.
    { eapply firm_sub; [apply (firm_more fields _ (mentions v) _ Hf)|clear; set_solver]. intros w Hw; apply (fm_stored _ _ _ Hf); right; eauto. }
    pose proof (IH v (L ∪ mentions v) V s A I H Hf1 Hg Hst HS Hu (Ho v)) as X.
    destruct (exec_s bld u ua (bd_sty du) B _ (k v) V s) as [[r' s2|pk s2| |] V2]; try done.
    * destruct X as (G2 & Hst2 & A2 & Y & Z). split; [exact (grows_trans _ _ _ G0 G2)|]. split; [done|]. exists A2. split; [|done].
      eapply trun_others; [exact R1|]. by eapply trun_state.
    * destruct X as (-> & I2 & A2 & Y & Z). do 2 (split; [done|]). exists A2. split; [|done]. eapply trun_others; [exact R1|]. by eapply trun_state.
  - destruct Ho as [Hv Ho]. destruct (my_state_at E s u S du ua I Hst Hu) as (v' & -> & _ & Hk & Hd).
    set (s1 := set_ch _ s). assert (prim s s1) as P1 by (eapply pm_set; eauto). pose proof (prims_grows E _ _ I (rtc_once _ _ P1)) as G1.
    assert (shows s1 (r_put u v A)) as H1 by (by eapply shows_put).
    pose proof (IH L V s1 (r_put u v A) (proj1 G1) H1 ltac:(apply firm_put; [done|]; intros w Hw; by apply HM, Hv) Hg Hst HS Hu Ho) as X.
    destruct (exec_s bld u ua (bd_sty du) B _ p V s1) as [[r' s2|pk s2| |] V2]; try done.
    * destruct X as (G2 & Hst2 & A2 & Y & Z). split; [exact (grows_trans _ _ _ G0 (grows_trans _ _ _ G1 G2))|]. split; [done|]. exists A2. split; [|done].
      eapply trun_others; [exact R1|]. by eapply trun_set.
    * destruct X as (-> & I2 & A2 & Y & Z). do 2 (split; [done|]). exists A2. split; [|done]. eapply trun_others; [exact R1|]. by eapply trun_set.
  - assert (prim s (tock s)) as P1 by constructor. rewrite <- (sh_tick _ _ H). pose proof (prims_grows E _ _ I (rtc_once _ _ P1)) as G1.
    pose proof (IH (e_ask E (r_tick A)) L V (tock s) (r_tock A) (proj1 G1) (shows_tock _ _ H) (firm_tock _ _ _ Hf) Hg Hst HS Hu (Ho _)) as X.
    destruct (exec_s bld u ua (bd_sty du) B _ _ V (tock s)) as [[r' s2|pk s2| |] V2]; try done.
    * destruct X as (G2 & Hst2 & A2 & Y & Z). split; [exact (grows_trans _ _ _ G0 (grows_trans _ _ _ G1 G2))|]. split; [done|]. exists A2. split; [|done].
      eapply trun_others; [exact R1|]. by eapply trun_ask.
    * destruct X as (-> & I2 & A2 & Y & Z). do 2 (split; [done|]). exists A2. split; [|done]. eapply trun_others; [exact R1|]. by eapply trun_ask.
  - assert (prim s (set_nbin (N.succ (nbin s)) s)) as P1 by constructor. pose proof (prims_grows E _ _ I (rtc_once _ _ P1)) as G1.
    pose proof (IH (Bin (nbin s) v) L V _ _ (proj1 G1) (shows_newbin s A H) (firm_newbin _ _ _ Hf) Hg Hst HS Hu (Ho _)) as X.
    destruct (exec_s bld u ua (bd_sty du) B _ _ V _) as [[r' s2|pk s2| |] V2]; try done.
    * destruct X as (G2 & Hst2 & A2 & Y & Z). split; [exact (grows_trans _ _ _ G0 (grows_trans _ _ _ G1 G2))|]. split; [done|]. exists A2. split; [|done].
      eapply trun_others; [exact R1|]. eapply trun_newbin. by rewrite (sh_nbin _ _ H).
    * destruct X as (-> & I2 & A2 & Y & Z). do 2 (split; [done|]). exists A2. split; [|done]. eapply trun_others; [exact R1|].
      eapply trun_newbin. by rewrite (sh_nbin _ _ H).
  - pose proof (alloc_iff E s A d I H) as Ha. destruct (alloc E d s) as [[o s1]|] eqn:Hal; [|done].
    destruct Ha as (Hfr & -> & H1). assert (prim s s1) as P1 by (eapply pm_alloc; exact Hal).
    assert (stack s1 = stack s) as Hst1 by (by apply alloc_Some in Hal as (_ & -> & _)). pose proof (prims_grows E _ _ I (rtc_once _ _ P1)) as G1.
    assert (fields d ⊆ fields du ∪ L ∧ fair d ∧ ∀ o, owns (fields du) (L ∪ {[o]}) (k o)) as (Hd & Hfd & Hok).
    { destruct d as [aty sty ini body]. destruct Ho as ((Ho1 & Ho2 & Ho3) & Ho4). split; [exact Ho1|]. split; [split; [exact Ho2|exact Ho3]|exact Ho4]. }
    assert (firm (B ∪ (L ∪ {[r_nobj A]}) ∪ V) (r_alloc d (e_ask E (r_tick A)) A)) as Hf1.
    { apply (firm_sub fields (B ∪ L ∪ V ∪ {[r_nobj A]})); [|clear; set_solver].
      apply (firm_alloc _ _ s A d _ (fields du ∪ L)); [done..|intros w Hw; by apply HM|exact Hd]. }
    pose proof (IH (r_nobj A) (L ∪ {[r_nobj A]}) V s1 _ (proj1 G1) H1 Hf1) as X.
    specialize (X ltac:(eapply (fair_alloc _ _ _ s A); [done..|intros w Hw; by apply HM|exact Hd|done]) ltac:(by rewrite Hst1)
      ltac:(eapply all_borne_mono; [done| |exact HS]; exact (grows_who s s1 A _ G1 H H1)) (proj2 G1 _ _ Hu) (Hok _)).
    destruct (exec_s bld u ua (bd_sty du) B _ (k (r_nobj A)) V s1) as [[r' s2|pk s2| |] V2]; try done.
    * destruct X as (G2 & Hst2 & A2 & Y & Z). split; [exact (grows_trans _ _ _ G0 (grows_trans _ _ _ G1 G2))|]. split; [done|]. exists A2. split; [|done].
      eapply trun_others; [exact R1|]. by eapply trun_new.
    * destruct X as (-> & I2 & A2 & Y & Z). do 2 (split; [done|]). exists A2. split; [|done]. eapply trun_others; [exact R1|]. by eapply trun_new.
  - done.
Qed.

Lemma build_s_sound n : sound_bs (build_s n).
Proof using HT.
  induction n as [|n IHn]; intros B V o s d a A I H Hf Hg HS Hbo Hp Hc; cbn [Shared.build_s]; [done|].
  rewrite Hp. pose proof (promise_Some o s d a) as [Hp' _]. destruct (Hp' Hp) as [Hal Ho]. clear Hp'.
  assert (r_who A !! o = Some (d, a)) as Hwho by (by rewrite (sh_who _ _ H)).
  assert (o ∈ r_live A) as Hl by (by rewrite (sh_live _ _ H)).
  destruct (Hg o d a Hwho) as [[Hfi Hfb] _].
  assert (∀ v w, r_state A !! o = Some v ∨ r_state A !! o = None ∧ bd_init d = Some v → w ∈ mentions v → w ∈ r_live A) as Hvl.
  { intros v w [Hv|[_ Hv]] Hw; [apply (fm_stored _ _ _ Hf); right; eauto|]. apply (fm_part _ _ _ Hf o); [done|]. exists d, a. split; [done|].
    apply Hfi. by rewrite Hv. }
  destruct d as [aty sty ini body].
  pose proof (cached_None s o _ a I Hp Hc) as Ha.
  unfold contains_artifact. rewrite Ha. rewrite bool_decide_eq_false_2 by (by intros [? ?]). rewrite andb_false_r.
  destruct (build_start E o s _ a A I H Hp Hc) as (c2 & Hst). cbn [bd_sty bd_init] in Hst.
  destruct (r_addr_at s A o _ a H Ho) as (_ & Hdef & _).
  pose proof (sh_state _ _ H o) as Hrs.
  assert (state_of s o = None ∧ ini = None ∨ ∃ v, (state_of s o = Some v ∨ state_of s o = None ∧ ini = Some v) ∧
      ensure_dyn_state a o sty ini (make_known a o (ch s)) = (c2, inr v) ∧
      let s1 := log (ECall o) (set_reent (reent s || bool_decide (o ∈ stack s)) (set_stack (o :: stack s) (set_ch c2 s))) in
      prims s s1 ∧ Inv s1 ∧ shows s1 (r_note (ECall o) (r_put o v (r_meet o A)))) as [[Hn Hi]|(v & Hv & -> & P1 & I1 & H1)].
  { destruct (state_of s o) as [v|], ini as [v'|]; [right; done..|left; done]. }
  - subst ini. rewrite Hn in Hst. destruct Hst as [He H1]. rewrite He. split; [done|].
    split; [|exists (r_meet o A); split; [by eapply tbuild_noinit; [exact Hdef|congruence|]|]; split; [done|]; split; [by apply firm_meet|done]].
    assert (c2 = make_known a o (ch s)) as ->.
    { unfold ensure_dyn_state in He. rewrite make_known_idem in He. by destruct (dyn_states _ !! a) as [dv|]; [destruct (_ =? _)%N|]; injection He as <-. }
    eapply (prim_Inv E); [|exact I]. by eapply pm_know.
  - assert (r_state A !! o = Some v ∨ r_state A !! o = None ∧ bd_init (BDef aty sty ini body) = Some v) as Hv' by (by rewrite Hrs).
    pose proof (prims_grows E _ _ I P1) as G1. cbn zeta. set (s1 := log _ _) in *. set (A1 := r_note _ _) in *.
    assert (firm (B ∪ ∅ ∪ V) A1) as Hf1.
    { rewrite (right_id_L ∅ (∪)). apply (firm_note fields _ (ECall o)), firm_put; [by apply firm_meet|]. intros w Hw. by eapply Hvl. }
    pose proof (run_s_sound (build_s n) o (BDef aty sty ini body) a (stack s) B IHn body ∅ V s1 A1 I1 H1 Hf1 Hg eq_refl) as X.
    specialize (X ltac:(intros w [->|Hw]%elem_of_cons; [exact Hbo|by apply HS]) Ho Hfb). cbn [bd_sty] in X.
    destruct (exec_s (build_s n) o a sty B ∅ body V s1) as [[[b|e] s2|k s2| |] V2] eqn:Hx; try done.
    + destruct X as ([I2 G2] & Hst2 & A2 & Y & Z & F2 & Q2).
      assert (objs s2 !! o = Some (BDef aty sty ini body, a)) as Ho2 by (by apply G2).
      destruct (my_state_at E s2 o (stack s) _ a I2 Hst2 Ho2) as (_ & _ & _ & Hk2 & _).
      cbn [artifacts set_artifacts]. rewrite lookup_insert.
      assert (prim s2 (set_stack (stack s) (log (EBuilt o b) (set_ch (set_artifacts <[a:=Art aty b]> (ch s2)) s2)))) as P3.
      { exact (pm_ok E s2 o (BDef aty sty ini body) a (stack s) b Hst2 Ho2). }
      split; [eapply grows_trans; [exact G1|]; eapply grows_trans; [split; [exact I2|exact G2]|]; exact (prims_grows E _ _ I2 (rtc_once _ _ P3))|].
      split; [done|]. split.
      { apply promise_Some. split; [|exact Ho2]. cbn. apply (i_stack _ I2). rewrite Hst2. left. }
      split; [intros e [= <-]; done|]. exists (r_note (EBuilt o b) (r_store o b A2)). split; [|split; [|split]].
      * eapply tbuild_ok; [exact Hdef|exact Hv'|exact Y].
      * apply shows_stack, shows_log. exact (shows_store s2 A2 o _ a aty b I2 Z Ho2 Hk2).
      * apply (firm_note _ _ (EBuilt o b)), firm_store; [exact F2|]. intros w Hw. apply (fm_held _ _ _ F2). apply elem_of_union_l. by apply elem_of_union_r.
      * exact Q2.
    + destruct X as ([I2 G2] & Hst2 & A2 & Y & Z & F2 & Q2).
      assert (objs s2 !! o = Some (BDef aty sty ini body, a)) as Ho2 by (by apply G2).
      assert (prim s2 (set_stack (stack s) (log (EFailed o e) s2))) as P3 by exact (pm_fail E s2 o (stack s) e Hst2).
      split; [eapply grows_trans; [exact G1|]; eapply grows_trans; [split; [exact I2|exact G2]|]; exact (prims_grows E _ _ I2 (rtc_once _ _ P3))|].
      split; [done|]. split.
      { apply promise_Some. split; [|exact Ho2]. cbn. apply (i_stack _ I2). rewrite Hst2. left. }
      split; [done|]. eexists. split; [eapply tbuild_err; [exact Hdef|exact Hv'|exact Y]|]. split; [by apply shows_stack, shows_log|].
      split; [by apply (firm_note _ _ (EFailed o e))|exact Q2].
    + destruct X as (-> & I2 & A2 & Y & Z & F2 & Q2). do 2 (split; [done|]).
      exists A2. split; [eapply tbuild_panic; [exact Hdef|exact Hv'|exact Y]|]. done.
Qed.
End SharedBuild.
