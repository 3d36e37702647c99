(** What a [get] records besides artifacts, and several [get]s one after the other:
    proofs for C62. *)
From Verif Require Export MinFacts.
From stdpp Require Import relations.

Lemma call_count_pos w (l : list event) : ECall w ∈ l → 0 < count (is_call w) l.
Proof.
  intros H. assert (count (is_call w) l ≠ 0); [|lia]. unfold count. intros H0%nil_length_inv.
  assert (ECall w ∈ filter (λ e, is_call w e = true) l) as Hin by (apply elem_of_list_filter; cbn; by rewrite N.eqb_refl).
  rewrite H0 in Hin. by apply elem_of_nil in Hin.
Qed.
Global Instance call_in_dec w (l : list event) : Decision (ECall w ∈ l).
Proof.
  destruct (decide (0 < count (is_call w) l)) as [H|H]; [left; by apply count_call_pos|right].
  intros Hin%call_count_pos. done.
Defined.

Section Recorded.
Context (E : env) (B : obj → option bdef) (σ : obj → option val).
Context (HB : ∀ o d, B o = Some d → oblivious (bd_body d)).
Local Notation prim := (Prims.prim E).
Local Notation prims := (rtc prim).
Notation asks_body := (asks_body B σ).
Notation asks := (asks B σ).
Notation wanted := (wanted B σ).
Notation fits := (fits B σ).
Notation evals := (evals B σ).

(** From [s] to [s'], [l] happened: whoever was called resolved what it asks for (and
    [Q] are the resolves of who was called before), and has its state afterwards. *)
Record noted (s s' : st) (Q : obj → obj → Prop) (l : list event) : Prop := {
  nt_resolved : ∀ u z, EResolve u z ∈ l ↔ (ECall u ∈ l ∧ asks u z) ∨ Q u z;
  nt_state : ∀ u, ECall u ∈ l → state_of s' u = config s u;
  nt_same : ∀ u, ECall u ∉ l → state_of s' u = state_of s u;
  nt_alive : alive s' = alive s;
  nt_conf : ∀ u, ECall u ∈ l → config s u ≠ None;
}.

Lemma noted_trans s s1 s2 Q1 Q2 (Q : obj → obj → Prop) l1 l2 :
  (∀ u, config s1 u = config s u) → noted s s1 Q1 l1 → noted s1 s2 Q2 l2 →
  (∀ u z, Q u z ↔ Q1 u z ∨ Q2 u z) → noted s s2 Q (l2 ++ l1).
Proof.
  intros Hc N1 N2 HQ. split.
  - intros u z. rewrite HQ, !elem_of_app, (nt_resolved _ _ _ _ N1), (nt_resolved _ _ _ _ N2). tauto.
  - intros u Hu. destruct (decide (ECall u ∈ l2)) as [H2|H2].
    + by rewrite (nt_state _ _ _ _ N2 u H2).
    + rewrite (nt_same _ _ _ _ N2 u H2). apply (nt_state _ _ _ _ N1). apply elem_of_app in Hu as [?|?]; done.
  - intros u [H2 H1]%not_elem_of_app. by rewrite (nt_same _ _ _ _ N2 u H2), (nt_same _ _ _ _ N1 u H1).
  - by rewrite (nt_alive _ _ _ _ N2), (nt_alive _ _ _ _ N1).
  - intros u [Hu|Hu]%elem_of_app; [rewrite <- Hc; by apply (nt_conf _ _ _ _ N2)|by apply (nt_conf _ _ _ _ N1)].
Qed.
Lemma noted_quiet s s' l (Q : obj → obj → Prop) :
  alive s' = alive s → (∀ u, state_of s' u = state_of s u) → (∀ u, ECall u ∉ l) → (∀ u z, EResolve u z ∈ l ↔ Q u z) → noted s s' Q l.
Proof.
  intros H0 H1 H2 H3. split; [|by intros ? ?%H2|done|done|by intros ? ?%H2].
  intros u z. rewrite H3. split; [by right|]. intros [[[]%H2 _]|?]; done.
Qed.

Definition bld_noted (bld : obj → st → outcome bres) : Prop :=
  ∀ o s d a r s', Inv s → pureinv s → fits s → promise o s = Some (d, a) → artifacts (ch s) !! a = None →
    bld o s = Done r s' → ∃ l, trace s' = l ++ trace s ∧ noted s s' (λ _ _, False) l.

Lemma get_with_noted bld h o s rv s' :
  bld_user bld → bld_noted bld → Inv s → pureinv s → fits s → get_with E bld h o s = Done rv s' →
  ∃ l, trace s' = l ++ trace s ∧ noted s s' (λ _ _, False) l.
Proof.
  intros Hu Hr I HP Hf. unfold get_with. destruct (promise o s) as [[d a]|] eqn:Hp; [|done].
  destruct (how_legal E h); [|done].
  rewrite (lookup_art_ok _ o s d a I Hp).
  destruct (artifacts (ch s) !! a) as [e|] eqn:He.
  - intros [= <- <-]. exists []. split; [done|]. apply noted_quiet; [done|done|by intros u ?%elem_of_nil|].
    intros u z. rewrite elem_of_nil. done.
  - specialize (Hr o s d a). destruct (Hu o s d a I Hp He) as [U1 U2].
    destruct (bld o s) as [[e|e] s1|k s1| |]; try done.
    + rewrite (U2 _ _ eq_refl), N.eqb_refl. intros [= <- <-]. by eapply Hr.
    + intros [= <- <-]. by eapply Hr.
Qed.

Lemma exec_noted bld u du ua S v :
  bld_ok E bld → bld_user bld → bld_pure bld → bld_noted bld → ∀ p s r s', pure_prog p → Inv s → pureinv s → fits s →
  stack s = u :: S → objs s !! u = Some (du, ua) → config s u = Some v →
  exec E bld u ua (bd_sty du) p s = Done r s' →
  ∃ l R, trace s' = l ++ trace s ∧ noted s s' (λ x z, x = u ∧ R z) l ∧ (∀ z, R z → asks_body v p z) ∧
    ∀ p' z, alike p p' → asks_body v p' z → R z.
Proof.
  intros Hb Hbu Hbp Hbr p.
  induction p as [r0| |h w k IH|k IH|v' p IH|k IH|v' k IH|d k IH|w p IH];
    intros s r s' Hpp I HP Hf Hst Hu Hv; cbn [exec]; try done.
  - intros [= <- <-]. exists [], (λ _, False). split_and!; [done|..].
    + apply noted_quiet; [done|done|by intros x ?%elem_of_nil|]. intros x z. rewrite elem_of_nil. tauto.
    + done.
    + intros p' z Ha Hz. inversion Ha; subst. inversion Hz.
  - cbn in Hpp. unfold resolve_with. destruct (promise w s) as [[d wa]|] eqn:Hp; [|done].
    unfold track_dependency.
    destruct (i_stack _ I u) as (_ & d' & a' & Hu' & Hku & Hdu); [rewrite Hst; left|].
    assert (a' = ua ∧ d' = du) as [-> ->] by (split; congruence).
    assert (prim s (set_ch (make_known wa w (ch s)) s)) as P1 by (eapply pm_know; eauto).
    pose proof (prim_Inv E _ _ P1 I) as I1.
    assert (known (make_known wa w (ch s)) !! ua = Some u) as Hku1 by (by apply make_known_mono).
    unfold is_known. rewrite (bool_decide_eq_true_2 (is_Some _)) by (rewrite Hku1; eauto).
    rewrite andb_false_r.
    set (s1 := log (EResolve u w) (set_ch (add_edge ua wa (make_known wa w (ch s))) s)).
    assert (prim (set_ch (make_known wa w (ch s)) s) s1) as P2.
    { eapply (pm_edge E (set_ch (make_known wa w (ch s)) s)); try done. apply make_known_known. }
    assert (prims s s1) as P01 by (eapply rtc_l; [exact P1|by apply rtc_once]).
    pose proof (prim_Inv E _ _ P2 I1) as I2.
    assert (∀ o, state_of s1 o = state_of s o) as Hs01.
    { intros o. apply state_ext; [done..| |].
      + cbn. by destruct (make_known_fields wa w (ch s)) as (_ & -> & _).
      + intros a o' Hk. cbn. by apply make_known_mono. }
    assert (pgrow s s1) as G01.
    { split_and!; [done| |].
      - intros o. apply config_ext; [done|]. apply Hs01.
      - intros u' w'. by apply (prims_dep_mono E). }
    assert (∀ o, cached s1 o = cached s o) as Hc01.
    { intros o. eapply (prims_cached_same E s s1 [EResolve u w]); [done..|]. set_solver. }
    assert (pureinv s1) as HP1 by (eapply pgrow_pureinv; [exact G01|exact Hc01|exact HP]).
    pose proof (fits_grow _ _ _ _ Hf G01) as Hf1.
    pose proof (get_with_pure E bld h w s1 Hbu Hbp I2 HP1) as [H1 H2].
    pose proof (get_with_prims E bld h w s1 Hb (i_wf _ I2)) as [Q1 Q2].
    change (log (EResolve u w) _) with s1.
    destruct (get_with E bld h w s1) as [rv s2|pk s2| |] eqn:Hgw; try done.
    destruct (get_with_noted bld h w s1 rv s2 Hbu Hbr I2 HP1 Hf1 Hgw) as (l1 & Hl1 & N12).
    destruct (H1 _ _ eq_refl) as (HP2 & G12 & x & Hx & ->).
    assert (prims s1 s2) as P12 by (apply Q1; left; eauto).
    assert (Inv s2) as I2' by (by eapply prims_Inv).
    set (s3 := log (EGot u w (handed h x)) s2).
    destruct (pureinv_ext s2 s3 HP2) as [HP3 G23]; [done..|].
    assert (pgrow s s2) as G02 by (eapply pgrow_trans; [exact G01|exact G12]).
    assert (pgrow s s3) as G03 by (eapply pgrow_trans; [exact G02|exact G23]).
    assert (Inv s3) as I3 by (by apply Inv_log).
    destruct (Q2 _ _ eq_refl) as [Hst2 _].
    pose proof (fits_grow _ _ _ _ Hf1 G12) as Hf2. pose proof (fits_grow _ _ _ _ Hf2 G23) as Hf3.
    pose proof (fits_eval _ _ s2 w _ Hf2 Hx) as Hx'.
    assert (noted s s1 (λ x z, x = u ∧ z = w) [EResolve u w]) as N01.
    { apply noted_quiet; [done|done|set_solver|]. intros y z. rewrite elem_of_list_singleton. split; [by intros [= -> ->]|by intros [-> ->]]. }
    assert (noted s s2 (λ x z, x = u ∧ z = w) (l1 ++ [EResolve u w])) as N02.
    { eapply noted_trans; [apply G01|exact N01|exact N12|]. intros ? ?. tauto. }
    assert (noted s s3 (λ x z, x = u ∧ z = w) ([EGot u w (handed h x)] ++ l1 ++ [EResolve u w])) as N03.
    { eapply (noted_trans s s2 s3 _ (λ _ _, False)); [apply G02|exact N02| |intros ? ?; tauto].
      apply noted_quiet; [done|done|set_solver|]. intros y z. rewrite elem_of_list_singleton. done. }
    assert (trace s3 = ([EGot u w (handed h x)] ++ l1 ++ [EResolve u w]) ++ trace s) as Hl3.
    { cbn. rewrite Hl1. cbn. by rewrite <- (assoc_L (++)). }
    assert (stack s3 = u :: S) as Hst3 by (cbn; by rewrite Hst2).
    assert (objs s3 !! u = Some (du, ua)) as Hu3 by (by destruct G03 as (-> & _)).
    assert (config s3 u = Some v) as Hv3 by (by destruct G03 as (_ & -> & _)).
    intros Hr. destruct (IH (handed h x) s3 r s' (Hpp _) I3 HP3 Hf3 Hst3 Hu3 Hv3 Hr) as (l2 & R & Hl2 & N34 & HR1 & HR2).
    exists (l2 ++ ([EGot u w (handed h x)] ++ l1 ++ [EResolve u w])), (λ z, z = w ∨ R z).
    split; [by rewrite Hl2, Hl3, (assoc_L (++))|]. split_and!.
    + eapply noted_trans; [apply G03|exact N03|exact N34|]. intros ? ?. tauto.
    + intros z [->|Hz]; [constructor|]. eapply ab_later; [exact Hx'|by apply HR1].
    + intros p' z Ha Hz. inversion Ha as [| |? ? ? k' Hkk| |]; subst.
      inversion Hz as [|? ? ? ? x' ? Hx2 Hz'| |]; subst; [by left|]. right.
      pose proof (proj1 (evals_det B σ HB) w _ Hx' _ Hx2) as Hxx. cbn in Hxx. injection Hxx as Hxx.
      eapply HR2; [|exact Hz']. apply Hkk. by apply strip_handed.
  - cbn in Hpp. destruct (i_stack _ I u) as (_ & d' & a' & Hu' & Hku & [v' Hv']); [rewrite Hst; left|].
    assert (a' = ua ∧ d' = du) as [-> ->] by (split; congruence).
    unfold my_state, is_known. rewrite Hku, Hv'.
    rewrite (bool_decide_eq_true_2 (is_Some (Some u))) by eauto. rewrite !andb_false_r.
    rewrite (ci_dyn_ty _ _ (i_c _ I) ua v' u du Hv' Hku Hu), N.eqb_refl.
    assert (ds_val v' = v) as ->.
    { unfold config in Hv. rewrite (state_at s u du ua Hu Hku), Hv' in Hv. cbn in Hv. congruence. }
    intros Hr. destruct (IH v s r s' (Hpp _) I HP Hf Hst Hu Hv Hr) as (l & R & Hl & HR & HR1 & HR2).
    exists l, R. split_and!; [done|done|..].
    + intros z Hz. constructor. by apply HR1.
    + intros p' z Ha Hz. inversion Ha as [| | |? k' Hkk|]; subst. inversion Hz; subst. by eapply HR2.
  - cbn in Hpp. set (s1 := set_nbin _ s). destruct (pureinv_ext s s1 HP) as [HP1 G01]; [done..|].
    assert (Inv s1) as I1 by (eapply (prim_Inv E); [apply (pm_newbin E)|done]).
    intros Hr. destruct (IH (Bin (nbin s) v') s1 r s' (Hpp _) I1 HP1 (fits_grow _ _ _ _ Hf G01) Hst Hu Hv Hr) as (l & R & Hl & HR & HR1 & HR2).
    exists l, R. split_and!; [done|..].
    + destruct HR. by split.
    + intros z Hz. eapply ab_newbin. by apply HR1.
    + intros p' z Ha Hz. inversion Ha as [| | | |? x' ? k' Hxx Hkk]; subst. inversion Hz; subst. by eapply HR2.
Qed.

Lemma build_noted n : bld_noted (build E n).
Proof.
  induction n as [|n IH]; intros o s d a r0 s0 I HP Hf Hp Hn; [done|].
  cbn [build] in *. rewrite Hp in *.
  destruct d as [aty sty init body] eqn:Hd. unfold contains_artifact in *. rewrite Hn in *.
  rewrite (bool_decide_eq_false_2 (is_Some None)) in * by (intros [? ?]; done). rewrite andb_false_r in *.
  apply promise_Some in Hp as Hp'. destruct Hp' as [Hal Ho].
  set (sk := set_ch (make_known a o (ch s)) s).
  assert (prim s sk) as Pk by (eapply pm_know; eauto).
  assert (Inv sk) as Ik by (eapply (prim_Inv E); [exact Pk|done]).
  assert (∀ z, state_of sk z = state_of s z) as Hsk.
  { intros o'. apply state_ext; [done..| |].
    + cbn. by destruct (make_known_fields a o (ch s)) as (_ & -> & _).
    + intros a' o'' Hk. cbn. by apply make_known_mono. }
  assert (pgrow s sk) as Gk.
  { split_and!; [done| |].
    - intros o'. apply config_ext; [done|]. apply Hsk.
    - intros u' w'. apply (prims_dep_mono E); [done|]. by apply rtc_once. }
  assert (pureinv sk) as HPk.
  { eapply pgrow_pureinv; [exact Gk| |exact HP]. intros o'.
    eapply (prims_cached_same E s sk []); [done|by apply rtc_once|done|set_solver]. }
  destruct (ensure_effect E o sk d a Ik) as (c2 & I2 & Hm); [by subst d|].
  assert (∀ v, sets_state sk o v (set_ch c2 sk) → v = config sk o → pgrow sk (set_ch c2 sk) ∧ pureinv (set_ch c2 sk)) as Hss.
  { intros v Hs Hv. assert (pgrow sk (set_ch c2 sk)) as G.
    { split_and!; [done| |].
      - intros w. destruct (decide (w = o)) as [->|Hne].
        + unfold config at 1. rewrite (ss_state _ _ _ _ Hs), Hv. destruct (config sk o) eqn:Hc; [done|].
          unfold config in Hc. destruct (state_of sk o); [done|]. exact Hc.
        + apply config_ext; [done|]. by apply (ss_others _ _ _ _ Hs).
      - intros u w H. by apply (ss_depends _ _ _ _ Hs). }
    split; [done|]. eapply pgrow_pureinv; [exact G| |exact HPk]. apply (ss_cached _ _ _ _ Hs). }
  assert (initial sk o = bd_init d) as Hini by (unfold initial; cbn; rewrite Ho; by subst d).
  subst d. cbn [bd_sty bd_init] in *. change (ch sk) with (make_known a o (ch s)) in Hm.
  assert ((∃ v, ensure_dyn_state a o sty init (make_known a o (ch s)) = (c2, inr v) ∧ config sk o = Some v ∧ sets_state sk o (Some v) (set_ch c2 sk)) ∨
    ∃ k, ensure_dyn_state a o sty init (make_known a o (ch s)) = (c2, inl k)) as Hcase.
  { unfold config. rewrite Hini. destruct (state_of sk o) as [v|] eqn:Hst; [destruct Hm; eauto|].
    destruct init as [v|]; destruct Hm; eauto. }
  clear Hm. destruct Hcase as [(v & He & Hcfg & Hs)|(k & He)]; rewrite He in *; [|done].
  destruct (Hss (Some v) Hs) as [G HP2]; [congruence|].
  set (s1 := log _ _) in *.
  destruct (pureinv_ext (set_ch c2 sk) s1 HP2) as [HP1 G21]; [done..|].
  assert (pgrow s s1) as G01 by (eapply pgrow_trans; [exact Gk|eapply pgrow_trans; [exact G|exact G21]]).
  destruct (ensure_prims E o s (BDef aty sty init body) a c2 (inr v) Hp) as (E1 & Ea & Ek & Ed).
  { exact He. }
  assert (prims s s1) as P01.
  { eapply rtc_r; [exact E1|]. eapply (pm_push E (set_ch c2 s)); eauto. cbn. congruence. }
  assert (Inv s1) as I1 by (by eapply prims_Inv).
  assert (trace s1 = ECall o :: trace s) as Ht1 by done.
  assert (config s1 o = Some v) as Hc1.
  { destruct G01 as (_ & -> & _). by destruct Gk as (_ & <- & _). }
  assert (config s o = Some v) as Hc0 by (by destruct Gk as (_ & <- & _)).
  assert (state_of s1 o = Some v) as Hs1o by exact (ss_state _ _ _ _ Hs).
  assert (∀ z, z ≠ o → state_of s1 z = state_of s z) as Hs1.
  { intros z Hz. rewrite <- Hsk. exact (ss_others _ _ _ _ Hs z Hz). }
  assert (pure_prog body) as Hpp by (apply (proj1 HP o _ a Ho)).
  destruct (Hf o) as [Hdo Hco]. unfold defs in Hdo. rewrite Ho in Hdo. cbn in Hdo.
  assert (σ o = Some v) as Hso by (rewrite <- Hco; done).
  assert (oblivious body) as Hob by (by apply (HB o (BDef aty sty init body))).
  assert (∀ z, asks_body v body z → asks o z) as Hasks by (intros z Hz; by exists (BDef aty sty init body), v).
  assert (∀ z, asks o z → asks_body v body z) as Hasks2.
  { intros z (d' & v' & Hd' & Hv' & Hz). assert (d' = BDef aty sty init body ∧ v' = v) as [-> ->] by (split; congruence). done. }
  pose proof (build_bld_ok E n) as Hbok.
  pose proof (λ r s', exec_noted (build E n) o (BDef aty sty init body) a (stack s) v Hbok (build_user E n)
    (build_pure E n) IH body s1 r s' Hpp I1 HP1 (fits_grow _ _ _ _ Hf G01) eq_refl Ho Hc1) as X1.
  cbn [bd_sty] in *.
  assert (∀ r s2 s3 e, exec E (build E n) o a sty body s1 = Done r s2 → trace s3 = e :: trace s2 →
    (∀ w, e ≠ ECall w) → (∀ w z, e ≠ EResolve w z) → (∀ z, state_of s3 z = state_of s2 z) → alive s3 = alive s2 →
    ∃ l, trace s3 = l ++ trace s ∧ noted s s3 (λ _ _, False) l) as Hfin.
  { intros r s2 s3 e Hx Ht3 He3 He4 Hs3 Ha3. destruct (X1 _ _ Hx) as (l & R & Hl & N & HR1 & HR2).
    exists (e :: l ++ [ECall o]). split; [rewrite Ht3, Hl, Ht1; cbn; by rewrite <- (assoc_L (++))|].
    assert (∀ w, ECall w ∈ e :: l ++ [ECall o] ↔ w = o ∨ ECall w ∈ l) as Hin.
    { intros w. rewrite elem_of_cons, elem_of_app, elem_of_list_singleton. split.
      - intros [?|[?|[= ->]]]; [by destruct (He3 w)|by right|by left].
      - intros [-> |?]; auto. }
    assert (∀ w z, EResolve w z ∈ e :: l ++ [ECall o] ↔ EResolve w z ∈ l) as Hin2.
    { intros w z. rewrite elem_of_cons, elem_of_app, elem_of_list_singleton. split.
      - intros [?|[?|?]]; [by destruct (He4 w z)|done|done].
      - auto. }
    split.
    - intros w z. rewrite Hin2, Hin, (nt_resolved _ _ _ _ N). split.
      + intros [[H1 H2]|[-> H]]; left; [auto|]. split; [by left|]. by apply Hasks, HR1.
      + intros [[[->|H1] H2]|[]]; [|by left]. right. split; [done|]. eapply HR2; [exact Hob|]. by apply Hasks2.
    - intros w [->|Hw]%Hin.
      + rewrite Hs3. destruct (decide (ECall o ∈ l)) as [Ho'|Ho'].
        * rewrite (nt_state _ _ _ _ N o Ho'). congruence.
        * rewrite (nt_same _ _ _ _ N o Ho'). congruence.
      + rewrite Hs3, (nt_state _ _ _ _ N w Hw). apply G01.
    - intros w Hw. assert (w ≠ o ∧ ECall w ∉ l) as [Hne Hl'].
      { split; intros ?; apply Hw, Hin; [by left|by right]. }
      rewrite Hs3, (nt_same _ _ _ _ N w Hl'). by apply Hs1.
    - rewrite Ha3. exact (nt_alive _ _ _ _ N).
    - intros w [->|Hw]%Hin; [congruence|]. destruct G01 as (_ & <- & _). by apply (nt_conf _ _ _ _ N). }
  destruct (exec E (build E n) o a sty body s1) as [[b|e] s2|k s2| |] eqn:Hx; try done.
  - cbn [artifacts set_artifacts] in *. rewrite lookup_insert in *. intros [= <- <-].
    eapply (Hfin (Ok b) s2 _ (EBuilt o b)); done.
  - intros [= <- <-]. eapply (Hfin (Err e) s2 _ (EFailed o e)); done.
Qed.

Lemma get_noted n h o s rv s' : Inv s → pureinv s → fits s → get E n h o s = Done rv s' →
  ∃ l, trace s' = l ++ trace s ∧ noted s s' (λ _ _, False) l.
Proof. intros I HP Hf Hg. eapply (get_with_noted (build E n) h o s rv s'); [apply build_user|apply build_noted|done..]. Qed.

(** ** Requests that return or panic: [R] is what was asked for at the top, [Q] the
    resolves of who was called before.  A builder is not called if [init_dyn_state]
    panics. *)
Record went (s s' : st) (R : obj → Prop) (Q : obj → obj → Prop) (l : list event) : Prop := {
  wt_called : ∀ w, ECall w ∈ l → ∃ z, R z ∧ wanted (has s) z w;
  wt_all : ∀ z, R z → has s z ∨ ECall z ∈ l ∨ σ z = None;
  wt_new : ∀ z, has s' z → has s z ∨ ECall z ∈ l;
  wt_closed : ∀ u z, ECall u ∈ l → asks u z → has s z ∨ ECall z ∈ l ∨ σ z = None;
  wt_once : ∀ w b, evals w (EvRet (Ok b)) → count (is_call w) l ≤ 1;
  wt_has : ∀ w b, evals w (EvRet (Ok b)) → ECall w ∈ l → has s' w;
  wt_noted : noted s s' Q l;
}.
Lemma ran_went s s' R Q l : ran B σ s s' R l → noted s s' Q l → went s s' R Q l.
Proof.
  intros N Nt. split; [exact (rn_called _ _ _ _ _ _ N)| |exact (rn_new _ _ _ _ _ _ N)| |
    exact (rn_once _ _ _ _ _ _ N)|exact (rn_has _ _ _ _ _ _ N)|done].
  - intros z Hz. destruct (rn_all _ _ _ _ _ _ N z Hz); auto.
  - intros u z Hu Ha. destruct (rn_closed _ _ _ _ _ _ N u z Hu Ha); auto.
Qed.

Lemma went_trans s s1 s2 R1 R2 Q1 Q2 l1 l2 (R : obj → Prop) (Q : obj → obj → Prop) :
  (∀ z, has s z → has s1 z) → (∀ u, config s1 u = config s u) → went s s1 R1 Q1 l1 → went s1 s2 R2 Q2 l2 →
  (∀ z, has s1 z → has s2 z) →
  (∀ z, R z ↔ R1 z ∨ R2 z) → (∀ u z, Q u z ↔ Q1 u z ∨ Q2 u z) → went s s2 R Q (l2 ++ l1).
Proof.
  intros Hm1 Hcf H1 H2 Hm HR HQ.
  assert (∀ w, ECall w ∈ l2 → ¬ has s1 w) as Hfresh.
  { intros w Hw. destruct (wt_called _ _ _ _ _ H2 w Hw) as (z & _ & Hn). by apply wanted_not in Hn. }
  assert (∀ z, has s1 z ∨ ECall z ∈ l2 ∨ σ z = None → has s z ∨ ECall z ∈ l2 ++ l1 ∨ σ z = None) as Hl2.
  { intros z [Hz|[Hz|Hz]]; [|right; left; apply elem_of_app; by left|by right; right].
    destruct (wt_new _ _ _ _ _ H1 z Hz); [by left|right; left; apply elem_of_app; by right]. }
  assert (∀ z, has s z ∨ ECall z ∈ l1 ∨ σ z = None → has s z ∨ ECall z ∈ l2 ++ l1 ∨ σ z = None) as Hl1.
  { intros z [Hz|[Hz|Hz]]; [by left|right; left; apply elem_of_app; by right|by right; right]. }
  split.
  - intros w [Hw|Hw]%elem_of_app.
    + destruct (wt_called _ _ _ _ _ H2 w Hw) as (z & Hz & Hn). exists z. split; [apply HR; by right|]. by eapply wanted_mono.
    + destruct (wt_called _ _ _ _ _ H1 w Hw) as (z & Hz & Hn). exists z. split; [apply HR; by left|done].
  - intros z [Hz|Hz]%HR; [by apply Hl1, (wt_all _ _ _ _ _ H1)|by apply Hl2, (wt_all _ _ _ _ _ H2)].
  - intros z Hz. destruct (wt_new _ _ _ _ _ H2 z Hz) as [Hh|]; [|right; apply elem_of_app; by left].
    destruct (wt_new _ _ _ _ _ H1 z Hh); [by left|right; apply elem_of_app; by right].
  - intros u z [Hu|Hu]%elem_of_app Ha; [by apply Hl2, (wt_closed _ _ _ _ _ H2 u)|by apply Hl1, (wt_closed _ _ _ _ _ H1 u)].
  - intros w b Hb. rewrite count_app.
    pose proof (wt_once _ _ _ _ _ H1 w b Hb). pose proof (wt_once _ _ _ _ _ H2 w b Hb).
    destruct (count (is_call w) l1) as [|c] eqn:Hc; [lia|].
    assert (ECall w ∈ l1) as Hw by (apply count_call_pos; lia).
    rewrite (count_call_in w l2); [lia|]. intros Hw2. apply (Hfresh w Hw2). by eapply (wt_has _ _ _ _ _ H1).
  - intros w b Hb [Hw|Hw]%elem_of_app; [by eapply (wt_has _ _ _ _ _ H2)|]. apply Hm. by eapply (wt_has _ _ _ _ _ H1).
  - eapply noted_trans; [exact Hcf|exact (wt_noted _ _ _ _ _ H1)|exact (wt_noted _ _ _ _ _ H2)|exact HQ].
Qed.

Definition bld_went (bld : obj → st → outcome bres) : Prop :=
  ∀ o s d a k s', Inv s → pureinv s → fits s → promise o s = Some (d, a) → artifacts (ch s) !! a = None →
    bld o s = Panic k s' → ∃ l, trace s' = l ++ trace s ∧ went s s' (λ z, z = o) (λ _ _, False) l.

Lemma get_with_went bld h o s k s' :
  bld_user bld → bld_went bld → Inv s → pureinv s → fits s → get_with E bld h o s = Panic k s' →
  ∃ l, trace s' = l ++ trace s ∧ went s s' (λ z, z = o) (λ _ _, False) l.
Proof.
  intros Hu Hr I HP Hf. unfold get_with. destruct (promise o s) as [[d a]|] eqn:Hp; [|done].
  destruct (how_legal E h); [|done].
  rewrite (lookup_art_ok _ o s d a I Hp).
  destruct (artifacts (ch s) !! a) as [e|] eqn:He; [done|].
  specialize (Hr o s d a). destruct (Hu o s d a I Hp He) as [U1 U2].
  destruct (bld o s) as [[e|e] s1|k1 s1| |]; try done.
  - rewrite (U2 _ _ eq_refl), N.eqb_refl. done.
  - intros [= <- <-]. by eapply Hr.
Qed.

Lemma exec_went bld u du ua S v :
  bld_ok E bld → bld_user bld → bld_pure bld → bld_ran B σ bld → bld_noted bld → bld_went bld →
  ∀ p s k s', pure_prog p → Inv s → pureinv s → fits s →
  stack s = u :: S → objs s !! u = Some (du, ua) → config s u = Some v →
  exec E bld u ua (bd_sty du) p s = Panic k s' →
  ∃ l R, trace s' = l ++ trace s ∧ went s s' R (λ x z, x = u ∧ R z) l ∧ (∀ z, R z → asks_body v p z) ∧
    ∀ p' z, alike p p' → asks_body v p' z → R z.
Proof.
  intros Hb Hbu Hbp Hbr Hbn Hbw p.
  induction p as [r0| |h w k IH|k IH|v' p IH|k IH|v' k IH|d k IH|w p IH];
    intros s pk s' Hpp I HP Hf Hst Hu Hv; cbn [exec]; try done.
  - intros [= <- <-]. exists [], (λ _, False). split_and!; [done|..].
    + apply ran_went; [apply ran_quiet; [auto|by intros x ?%elem_of_nil]|].
      apply noted_quiet; [done|done|by intros x ?%elem_of_nil|]. intros x z. rewrite elem_of_nil. tauto.
    + done.
    + intros p' z Ha Hz. inversion Ha; subst. inversion Hz.
  - cbn in Hpp. unfold resolve_with. destruct (promise w s) as [[d wa]|] eqn:Hp; [|done].
    unfold track_dependency.
    destruct (i_stack _ I u) as (_ & d' & a' & Hu' & Hku & Hdu); [rewrite Hst; left|].
    assert (a' = ua ∧ d' = du) as [-> ->] by (split; congruence).
    assert (prim s (set_ch (make_known wa w (ch s)) s)) as P1 by (eapply pm_know; eauto).
    pose proof (prim_Inv E _ _ P1 I) as I1.
    assert (known (make_known wa w (ch s)) !! ua = Some u) as Hku1 by (by apply make_known_mono).
    unfold is_known. rewrite (bool_decide_eq_true_2 (is_Some _)) by (rewrite Hku1; eauto).
    rewrite andb_false_r.
    set (s1 := log (EResolve u w) (set_ch (add_edge ua wa (make_known wa w (ch s))) s)).
    assert (prim (set_ch (make_known wa w (ch s)) s) s1) as P2.
    { eapply (pm_edge E (set_ch (make_known wa w (ch s)) s)); try done. apply make_known_known. }
    assert (prims s s1) as P01 by (eapply rtc_l; [exact P1|by apply rtc_once]).
    pose proof (prim_Inv E _ _ P2 I1) as I2.
    assert (∀ o, state_of s1 o = state_of s o) as Hs01.
    { intros o. apply state_ext; [done..| |].
      + cbn. by destruct (make_known_fields wa w (ch s)) as (_ & -> & _).
      + intros a o' Hk. cbn. by apply make_known_mono. }
    assert (pgrow s s1) as G01.
    { split_and!; [done| |].
      - intros o. apply config_ext; [done|]. apply Hs01.
      - intros u' w'. by apply (prims_dep_mono E). }
    assert (∀ o, cached s1 o = cached s o) as Hc01.
    { intros o. eapply (prims_cached_same E s s1 [EResolve u w]); [done..|]. set_solver. }
    assert (pureinv s1) as HP1 by (eapply pgrow_pureinv; [exact G01|exact Hc01|exact HP]).
    pose proof (fits_grow _ _ _ _ Hf G01) as Hf1.
    pose proof (get_with_pure E bld h w s1 Hbu Hbp I2 HP1) as [H1 H2].
    pose proof (get_with_prims E bld h w s1 Hb (i_wf _ I2)) as [Q1 Q2].
    change (log (EResolve u w) _) with s1.
    assert (went s s1 (λ _, False) (λ x z, x = u ∧ z = w) [EResolve u w]) as N01.
    { apply ran_went; [apply ran_quiet; [intros z; unfold has; by rewrite Hc01|set_solver]|].
      apply noted_quiet; [done|done|set_solver|]. intros y z. rewrite elem_of_list_singleton. split; [by intros [= -> ->]|by intros [-> ->]]. }
    assert (∀ z, has s z → has s1 z) as Hm01 by (intros z; unfold has; by rewrite Hc01).
    destruct (get_with E bld h w s1) as [rv s2|pk2 s2| |] eqn:Hgw; try done.
    + destruct (get_with_noted bld h w s1 rv s2 Hbu Hbn I2 HP1 Hf1 Hgw) as (l1 & Hl1 & Nt12).
      destruct (get_with_ran E B σ bld h w s1 Hbu Hbr I2 HP1 Hf1) as [W1 _].
      destruct (W1 _ _ Hgw) as (l1' & Hl1' & W12). assert (l1' = l1) as -> by (rewrite Hl1 in Hl1'; by apply app_inv_tail in Hl1').
      pose proof (ran_went _ _ _ _ _ W12 Nt12) as N12. clear W1 W12 Nt12 Hl1'.
      destruct (H1 _ _ eq_refl) as (HP2 & G12 & x & Hx & ->).
      assert (prims s1 s2) as P12 by (apply Q1; left; eauto).
      assert (Inv s2) as I2' by (by eapply prims_Inv).
      set (s3 := log (EGot u w (handed h x)) s2).
      destruct (pureinv_ext s2 s3 HP2) as [HP3 G23]; [done..|].
      assert (pgrow s s2) as G02 by (eapply pgrow_trans; [exact G01|exact G12]).
      assert (pgrow s s3) as G03 by (eapply pgrow_trans; [exact G02|exact G23]).
      assert (Inv s3) as I3 by (by apply Inv_log).
      destruct (Q2 _ _ eq_refl) as [Hst2 _].
      pose proof (fits_grow _ _ _ _ Hf1 G12) as Hf2. pose proof (fits_grow _ _ _ _ Hf2 G23) as Hf3.
      pose proof (fits_eval _ _ s2 w _ Hf2 Hx) as Hx'.
      assert (∀ z, has s1 z → has s2 z) as Hm12 by (intros z; by apply (has_mono E)).
      assert (went s s2 (λ z, z = w) (λ x z, x = u ∧ z = w) (l1 ++ [EResolve u w])) as N02.
      { eapply went_trans; [exact Hm01|apply G01|exact N01|exact N12|exact Hm12|by intros z; tauto|intros ? ?; tauto]. }
      assert (went s s3 (λ z, z = w) (λ x z, x = u ∧ z = w) ([EGot u w (handed h x)] ++ l1 ++ [EResolve u w])) as N03.
      { eapply (went_trans s s2 s3 _ (λ _, False) _ (λ _ _, False)); [by intros z Hz; apply Hm12, Hm01|apply G02|exact N02| |done|by intros z; tauto|intros ? ?; tauto].
        apply ran_went; [apply ran_quiet; [done|set_solver]|].
        apply noted_quiet; [done|done|set_solver|]. intros y z. rewrite elem_of_list_singleton. done. }
      assert (trace s3 = ([EGot u w (handed h x)] ++ l1 ++ [EResolve u w]) ++ trace s) as Hl3.
      { cbn. rewrite Hl1. cbn. by rewrite <- (assoc_L (++)). }
      assert (stack s3 = u :: S) as Hst3 by (cbn; by rewrite Hst2).
      assert (objs s3 !! u = Some (du, ua)) as Hu3 by (by destruct G03 as (-> & _)).
      assert (config s3 u = Some v) as Hv3 by (by destruct G03 as (_ & -> & _)).
      intros Hr. destruct (IH (handed h x) s3 pk s' (Hpp _) I3 HP3 Hf3 Hst3 Hu3 Hv3 Hr) as (l2 & R & Hl2 & N34 & HR1 & HR2).
      assert (prims s3 s') as P34.
      { apply (exec_prims E bld u du ua S Hb (k (handed h x)) s3 (i_wf _ I3) Hst3 Hu3). right. eauto. }
      exists (l2 ++ ([EGot u w (handed h x)] ++ l1 ++ [EResolve u w])), (λ z, z = w ∨ R z).
      split; [by rewrite Hl2, Hl3, (assoc_L (++))|]. split_and!.
      * eapply (went_trans s s3 s'); [by intros z Hz; apply Hm12, Hm01|apply G03|exact N03|exact N34|by intros z; apply (has_mono E)|done|]. intros ? ?. tauto.
      * intros z [->|Hz]; [constructor|]. eapply ab_later; [exact Hx'|by apply HR1].
      * intros p' z Ha Hz. inversion Ha as [| |? ? ? k' Hkk| |]; subst.
        inversion Hz as [|? ? ? ? x' ? Hx2 Hz'| |]; subst; [by left|]. right.
        pose proof (proj1 (evals_det B σ HB) w _ Hx' _ Hx2) as Hxx. cbn in Hxx. injection Hxx as Hxx.
        eapply HR2; [|exact Hz']. apply Hkk. by apply strip_handed.
    + destruct (get_with_went bld h w s1 pk2 s2 Hbu Hbw I2 HP1 Hf1 Hgw) as (l1 & Hl1 & N12).
      destruct (H2 _ _ eq_refl) as (HP2 & G12 & Hx). pose proof (fits_eval _ _ s2 w _ (fits_grow _ _ _ _ Hf1 G12) Hx) as Hx'.
      assert (prims s1 s2) as P12 by (apply Q1; right; eauto).
      intros [= <- <-]. exists (l1 ++ [EResolve u w]), (λ z, z = w). split; [rewrite Hl1; cbn; by rewrite <- (assoc_L (++))|].
      split_and!.
      * eapply went_trans; [exact Hm01|apply G01|exact N01|exact N12|by intros z; apply (has_mono E)|by intros z; tauto|intros ? ?; tauto].
      * intros z ->. constructor.
      * intros p' z Ha Hz. inversion Ha as [| |? ? ? k' Hkk| |]; subst.
        inversion Hz as [|? ? ? ? x' ? Hx2 Hz'| |]; subst; [done|].
        pose proof (proj1 (evals_det B σ HB) w _ Hx' _ Hx2) as Hxx. done.
  - cbn in Hpp. destruct (i_stack _ I u) as (_ & d' & a' & Hu' & Hku & [v' Hv']); [rewrite Hst; left|].
    assert (a' = ua ∧ d' = du) as [-> ->] by (split; congruence).
    unfold my_state, is_known. rewrite Hku, Hv'.
    rewrite (bool_decide_eq_true_2 (is_Some (Some u))) by eauto. rewrite !andb_false_r.
    rewrite (ci_dyn_ty _ _ (i_c _ I) ua v' u du Hv' Hku Hu), N.eqb_refl.
    assert (ds_val v' = v) as ->.
    { unfold config in Hv. rewrite (state_at s u du ua Hu Hku), Hv' in Hv. cbn in Hv. congruence. }
    intros Hr. destruct (IH v s pk s' (Hpp _) I HP Hf Hst Hu Hv Hr) as (l & R & Hl & HR & HR1 & HR2).
    exists l, R. split_and!; [done|done|..].
    + intros z Hz. constructor. by apply HR1.
    + intros p' z Ha Hz. inversion Ha as [| | |? k' Hkk|]; subst. inversion Hz; subst. by eapply HR2.
  - cbn in Hpp. set (s1 := set_nbin _ s). destruct (pureinv_ext s s1 HP) as [HP1 G01]; [done..|].
    assert (Inv s1) as I1 by (eapply (prim_Inv E); [apply (pm_newbin E)|done]).
    intros Hr. destruct (IH (Bin (nbin s) v') s1 pk s' (Hpp _) I1 HP1 (fits_grow _ _ _ _ Hf G01) Hst Hu Hv Hr) as (l & R & Hl & HR & HR1 & HR2).
    exists l, R. split_and!; [done|..].
    + destruct HR as [? ? ? ? ? ? HN]. split; try done. destruct HN. by split.
    + intros z Hz. eapply ab_newbin. by apply HR1.
    + intros p' z Ha Hz. inversion Ha as [| | | |? x' ? k' Hxx Hkk]; subst. inversion Hz; subst. by eapply HR2.
Qed.

Lemma build_went n : bld_went (build E n).
Proof.
  induction n as [|n IH]; intros o s d a k0 s0 I HP Hf Hp Hn; [done|].
  pose proof (build_pure E (S n) o s d a I HP Hp Hn) as [_ BP2].
  assert (¬ has s o) as Hno by (unfold has; rewrite (live_cached s o d a I Hp), Hn; auto).
  cbn [build] in *. rewrite Hp in *.
  destruct d as [aty sty init body] eqn:Hd. unfold contains_artifact in *. rewrite Hn in *.
  rewrite (bool_decide_eq_false_2 (is_Some None)) in * by (intros [? ?]; done). rewrite andb_false_r in *.
  apply promise_Some in Hp as Hp'. destruct Hp' as [Hal Ho].
  set (sk := set_ch (make_known a o (ch s)) s).
  assert (prim s sk) as Pk by (eapply pm_know; eauto).
  assert (Inv sk) as Ik by (eapply (prim_Inv E); [exact Pk|done]).
  assert (∀ z, state_of sk z = state_of s z) as Hsk.
  { intros o'. apply state_ext; [done..| |].
    + cbn. by destruct (make_known_fields a o (ch s)) as (_ & -> & _).
    + intros a' o'' Hk. cbn. by apply make_known_mono. }
  assert (pgrow s sk) as Gk.
  { split_and!; [done| |].
    - intros o'. apply config_ext; [done|]. apply Hsk.
    - intros u' w'. apply (prims_dep_mono E); [done|]. by apply rtc_once. }
  assert (∀ z, cached sk z = cached s z) as Hck.
  { intros o'. eapply (prims_cached_same E s sk []); [done|by apply rtc_once|done|set_solver]. }
  assert (pureinv sk) as HPk by (eapply pgrow_pureinv; [exact Gk|exact Hck|exact HP]).
  destruct (ensure_effect E o sk d a Ik) as (c2 & I2 & Hm); [by subst d|].
  assert (∀ v, sets_state sk o v (set_ch c2 sk) → v = config sk o → pgrow sk (set_ch c2 sk) ∧ pureinv (set_ch c2 sk)) as Hss.
  { intros v Hs Hv. assert (pgrow sk (set_ch c2 sk)) as G.
    { split_and!; [done| |].
      - intros w. destruct (decide (w = o)) as [->|Hne].
        + unfold config at 1. rewrite (ss_state _ _ _ _ Hs), Hv. destruct (config sk o) eqn:Hc; [done|].
          unfold config in Hc. destruct (state_of sk o); [done|]. exact Hc.
        + apply config_ext; [done|]. by apply (ss_others _ _ _ _ Hs).
      - intros u w H. by apply (ss_depends _ _ _ _ Hs). }
    split; [done|]. eapply pgrow_pureinv; [exact G| |exact HPk]. apply (ss_cached _ _ _ _ Hs). }
  assert (initial sk o = bd_init d) as Hini by (unfold initial; cbn; rewrite Ho; by subst d).
  subst d. cbn [bd_sty bd_init] in *. change (ch sk) with (make_known a o (ch s)) in Hm.
  assert ((∃ v, ensure_dyn_state a o sty init (make_known a o (ch s)) = (c2, inr v) ∧ config sk o = Some v ∧ sets_state sk o (Some v) (set_ch c2 sk)) ∨
    ((∃ k, ensure_dyn_state a o sty init (make_known a o (ch s)) = (c2, inl k)) ∧ config sk o = None ∧ state_of sk o = None ∧ sets_state sk o None (set_ch c2 sk))) as Hcase.
  { unfold config. rewrite Hini. destruct (state_of sk o) as [v|] eqn:Hst; [destruct Hm; eauto|].
    destruct init as [v|]; destruct Hm; [eauto|]. right. split_and!; eauto. }
  clear Hm. destruct (Hf o) as [Hdo Hco]. unfold defs in Hdo. rewrite Ho in Hdo. cbn in Hdo.
  destruct Hcase as [(v & He & Hcfg & Hs)|((k & He) & Hcfg & Hst & Hs)]; rewrite He in *.
  2: { intros [= <- <-]. exists []. split; [done|].
    assert (σ o = None) as Hso by (rewrite <- Hco; by destruct Gk as (_ & <- & _)).
    assert (∀ z, has (set_ch c2 s) z ↔ has s z) as Hh.
    { intros z. unfold has. rewrite <- Hck. by rewrite <- (ss_cached _ _ _ _ Hs). }
    split; try (by intros ? ?%elem_of_nil); try (by intros ? ? ?%elem_of_nil); try (by intros ? ? ? ?%elem_of_nil).
    - intros z ->. by right; right.
    - intros z Hz. left. by apply Hh.
    - intros w b _. cbn. lia.
    - apply noted_quiet; [done| |by intros ? ?%elem_of_nil|intros ? ?; rewrite elem_of_nil; done].
      intros z. rewrite <- Hsk. destruct (decide (z = o)) as [->|Hne].
      + rewrite Hst. exact (ss_state _ _ _ _ Hs).
      + exact (ss_others _ _ _ _ Hs z Hne). }
  destruct (Hss (Some v) Hs) as [G HP2]; [congruence|].
  set (s1 := log _ _) in *.
  destruct (pureinv_ext (set_ch c2 sk) s1 HP2) as [HP1 G21]; [done..|].
  assert (pgrow s s1) as G01 by (eapply pgrow_trans; [exact Gk|eapply pgrow_trans; [exact G|exact G21]]).
  destruct (ensure_prims E o s (BDef aty sty init body) a c2 (inr v) Hp) as (E1 & Ea & Ek & Ed).
  { exact He. }
  assert (prims s s1) as P01.
  { eapply rtc_r; [exact E1|]. eapply (pm_push E (set_ch c2 s)); eauto. cbn. congruence. }
  assert (Inv s1) as I1 by (by eapply prims_Inv).
  assert (trace s1 = ECall o :: trace s) as Ht1 by done.
  assert (∀ z, cached s1 z = cached s z) as Hc01.
  { intros z. eapply (prims_cached_same E s s1 [ECall o]); [done..|]. intros u b Hin. apply elem_of_list_singleton in Hin. done. }
  assert (config s1 o = Some v) as Hc1.
  { destruct G01 as (_ & -> & _). by destruct Gk as (_ & <- & _). }
  assert (config s o = Some v) as Hc0 by (by destruct Gk as (_ & <- & _)).
  assert (state_of s1 o = Some v) as Hs1o by exact (ss_state _ _ _ _ Hs).
  assert (∀ z, z ≠ o → state_of s1 z = state_of s z) as Hs1.
  { intros z Hz. rewrite <- Hsk. exact (ss_others _ _ _ _ Hs z Hz). }
  assert (pure_prog body) as Hpp by (apply (proj1 HP o _ a Ho)).
  assert (σ o = Some v) as Hso by (rewrite <- Hco; done).
  assert (oblivious body) as Hob by (by apply (HB o (BDef aty sty init body))).
  assert (∀ z, asks_body v body z → asks o z) as Hasks by (intros z Hz; by exists (BDef aty sty init body), v).
  assert (∀ z, asks o z → asks_body v body z) as Hasks2.
  { intros z (d' & v' & Hd' & Hv' & Hz). assert (d' = BDef aty sty init body ∧ v' = v) as [-> ->] by (split; congruence). done. }
  pose proof (build_bld_ok E n) as Hbok.
  pose proof (λ k s', exec_went (build E n) o (BDef aty sty init body) a (stack s) v Hbok (build_user E n)
    (build_pure E n) (build_ran E B σ HB n) (build_noted n) IH body s1 k s' Hpp I1 HP1 (fits_grow _ _ _ _ Hf G01) eq_refl Ho Hc1) as X1.
  cbn [bd_sty] in *.
  destruct (exec E (build E n) o a sty body s1) as [[b|e] s2|k s2| |] eqn:Hx; try done.
  { cbn [artifacts set_artifacts] in *. rewrite lookup_insert in *. done. }
  intros [= <- <-]. destruct (BP2 _ _ eq_refl) as (_ & G02 & Hev).
  pose proof (fits_eval _ _ s2 o _ (fits_grow _ _ _ _ Hf G02) Hev) as Hev'.
  destruct (X1 _ _ eq_refl) as (l & R & Hl & N & HR1 & HR2).
  exists (l ++ [ECall o]). split; [rewrite Hl, Ht1; by rewrite <- (assoc_L (++))|].
  assert (∀ w, ECall w ∈ l ++ [ECall o] ↔ w = o ∨ ECall w ∈ l) as Hin.
  { intros w. rewrite elem_of_app, elem_of_list_singleton. split; [intros [?|[= ->]]; auto|intros [-> |?]; auto]. }
  assert (∀ w z, EResolve w z ∈ l ++ [ECall o] ↔ EResolve w z ∈ l) as Hin2.
  { intros w z. rewrite elem_of_app, elem_of_list_singleton. split; [by intros [?|?]|auto]. }
  assert (∀ z, has s1 z ↔ has s z) as Hh1 by (intros z; unfold has; by rewrite Hc01).
  assert (∀ z, has s1 z ∨ ECall z ∈ l ∨ σ z = None → has s z ∨ ECall z ∈ l ++ [ECall o] ∨ σ z = None) as Hlift.
  { intros z [Hz|[Hz|Hz]]; [left; by apply Hh1|right; left; apply Hin; by right|by right; right]. }
  pose proof (wt_noted _ _ _ _ _ N) as Nt.
  split.
  - intros w [-> |Hw]%Hin; exists o; (split; [done|]); [by apply wanted_top|].
    destruct (wt_called _ _ _ _ _ N w Hw) as (z & Hz & Hn'). eapply wanted_step; [done|by apply Hasks, HR1|].
    eapply wanted_mono; [|exact Hn']. intros y. apply Hh1.
  - intros z ->. right. left. apply Hin. by left.
  - intros z Hz. destruct (wt_new _ _ _ _ _ N z Hz) as [Hz'|Hz']; [left; by apply Hh1|right; apply Hin; by right].
  - intros u z [-> |Hu]%Hin Ha; apply Hlift.
    + apply (wt_all _ _ _ _ _ N). eapply HR2; [exact Hob|]. by apply Hasks2.
    + by eapply (wt_closed _ _ _ _ _ N).
  - intros w b Hb. rewrite count_app. pose proof (wt_once _ _ _ _ _ N w b Hb).
    rewrite (count_call_in w [ECall o]); [lia|]. intros [= ->]%elem_of_list_singleton.
    pose proof (proj1 (evals_det B σ HB) o _ Hev' _ Hb) as Hxx. done.
  - intros w b Hb [-> |Hw]%Hin; [|by eapply (wt_has _ _ _ _ _ N)].
    pose proof (proj1 (evals_det B σ HB) o _ Hev' _ Hb) as Hxx. done.
  - split.
    + intros w z. rewrite Hin2, Hin, (nt_resolved _ _ _ _ Nt). split.
      * intros [[H1 H2]|[-> H]]; left; [auto|]. split; [by left|]. by apply Hasks, HR1.
      * intros [[[->|H1] H2]|[]]; [|by left]. right. split; [done|]. eapply HR2; [exact Hob|]. by apply Hasks2.
    + intros w [->|Hw]%Hin.
      * destruct (decide (ECall o ∈ l)) as [Ho'|Ho'].
        -- rewrite (nt_state _ _ _ _ Nt o Ho'). congruence.
        -- rewrite (nt_same _ _ _ _ Nt o Ho'). congruence.
      * rewrite (nt_state _ _ _ _ Nt w Hw). apply G01.
    + intros w Hw. assert (w ≠ o ∧ ECall w ∉ l) as [Hne Hl'].
      { split; intros ?; apply Hw, Hin; [by left|by right]. }
      rewrite (nt_same _ _ _ _ Nt w Hl'). by apply Hs1.
    + exact (nt_alive _ _ _ _ Nt).
    + intros w [->|Hw]%Hin; [congruence|]. destruct G01 as (_ & <- & _). by apply (nt_conf _ _ _ _ Nt).
Qed.

(** A [get] that returns or panics. *)
Lemma get_went n h o s s' : Inv s → pureinv s → fits s → ends (get E n h o s) s' →
  ∃ l, trace s' = l ++ trace s ∧ went s s' (λ z, z = o) (λ _ _, False) l.
Proof.
  intros I HP Hf [[r Hg]|[k Hg]].
  - destruct (get_noted n h o s r s' I HP Hf Hg) as (l & Hl & Nt).
    destruct (get_ran E B σ HB n h o s I HP Hf) as [W _]. destruct (W _ _ Hg) as (l' & Hl' & N).
    assert (l' = l) as -> by (rewrite Hl in Hl'; by apply app_inv_tail in Hl'). exists l. split; [done|]. by apply ran_went.
  - eapply (get_with_went (build E n) h o s k s'); [apply build_user|apply build_went|done..].
Qed.
End Recorded.
