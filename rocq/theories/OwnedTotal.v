(** A [get] has an answer whenever the evaluation from scratch has one, when builders
    are dropped as soon as nobody holds them; cf. TransTotal.v. *)
From Verif Require Export OwnedCalls TransTotal.
From stdpp Require Import relations.

Section OwnedTotal.
Context (E : env) (fields : bdef → gset obj) (keep : prog → gset obj → gset obj).
Notation settle := (settle fields).
Notation settled_down := (settled_down fields).
Notation locals := (locals keep).
Notation owns := (owns E fields keep).
Notation exec_o := (exec_o E fields keep).
Notation build_o := (build_o E fields keep).
Notation firm := (firm fields).
Notation all_fair := (all_fair E fields keep).
Notation borne := (borne fields).
Notation all_borne := (all_borne fields).
Notation sound_bo := (sound_bo E fields keep).
Context (Q : bdef → Prop).
Notation good := (good Q).
Notation keeps_good := (keeps_good Q).

Lemma settle_objs n W s s' : settle n W s = Some s' → objs s' = objs s.
Proof.
  revert s. induction n as [|n IH]; intros s; cbn [Owned.settle]; [by intros [= <-]|].
  destruct (unheld fields W s) as [|w l]; [by intros [= <-]|]. destruct (drop_obj w s) as [s1|] eqn:Hd; [|done].
  apply drop_Some in Hd as (_ & _ & ->). intros H%IH. by rewrite H.
Qed.
Lemma good_settled W s s' : settled_down W s = Some s' → good s → good s'.
Proof. intros H Hg o d a. rewrite (settle_objs _ _ _ _ H). apply Hg. Qed.

Lemma good_get_o bld h o s : (∀ o s, good s → keeps_good (bld o s)) → good s → keeps_good (get_o E bld h o s).
Proof.
  intros Hb H. unfold get_o, get_with. destruct (promise o s) as [[d a]|]; [|by split]. destruct (how_legal E h); [|by split].
  destruct (lookup_art _ _ _ _) as [b| |k]; [by split; intros ? ? [= <- <-]| |by split; intros ? ? [= <- <-]].
  specialize (Hb o s H). destruct (bld o s) as [[e|e] s1|k s1| |].
  - destruct Hb as [X _]. specialize (X _ _ eq_refl). by destruct (_ =? _)%N; split; intros ? ? [= <- <-].
  - destruct Hb as [X _]. specialize (X _ _ eq_refl). by split; intros ? ? [= <- <-].
  - destruct Hb as [_ X]. specialize (X _ _ eq_refl). by split; intros ? ? [= <- <-].
  - by split.
  - by split.
Qed.
Lemma good_resolve_o bld u ua h w s : (∀ o s, good s → keeps_good (bld o s)) → good s → keeps_good (resolve_o E bld u ua h w s).
Proof.
  intros Hb H. unfold resolve_o, resolve_with. destruct (promise w s) as [[d a]|]; [|by split].
  destruct (track_dependency _ _ _ _ _) as [c|k c|]; [|by split; intros ? ? [= <- <-]|by split].
  pose proof (good_get_o bld h w (log (EResolve u w) (set_ch c s)) Hb H) as [X1 X2]. unfold get_o in X1, X2.
  destruct (get_with _ _ _ _ _) as [r s1|k s1| |]; [|by split; intros ? ? [= <- <-]; eapply X2|by split|by split].
  split; [|done]. intros ? ? [= <- <-]. by apply (X1 _ _ eq_refl).
Qed.
Lemma good_exec_o bld u ua t B p : (∀ B o s, good s → keeps_good (bld B o s)) →
  ∀ L s, pure_prog p → good s → keeps_good (exec_o bld u ua t B L p s).
Proof.
  intros Hb. induction p as [r| |h w k IH|k IH|v p IH|k IH|v k IH|d k IH|w p IH]; intros L s0 Hp H0; cbn [Owned.exec_o]; cbn zeta; try (by destruct Hp);
    (destruct (settled_down _ s0) as [s|] eqn:Hs; [|by split]); apply (good_settled _ _ _ Hs) in H0 as H; clear Hs H0 s0.
  - by split; intros ? ? [= <- <-].
  - by split; intros ? ? [= <- <-].
  - match goal with |- context [resolve_o E (bld ?W)] => pose proof (good_resolve_o (bld W) u ua h w s (Hb W) H) as [X1 X2] end.
    destruct (resolve_o _ _ _ _ _ _ _) as [r s1|pk s1| |]; [|by split; intros ? ? [= <- <-]; eapply X2|by split|by split].
    apply IH; [apply Hp|]. by apply (X1 _ _ eq_refl).
  - destruct (my_state _ _ _ _) as [pk|v]; [by split; intros ? ? [= <- <-]|]. apply IH; [apply Hp|done].
  - apply IH; [apply Hp|exact H].
Qed.
Context (HQ : ∀ d, Q d → pure_prog (bd_body d)).
Lemma good_build_o n B o s : good s → keeps_good (build_o n B o s).
Proof.
  revert B o s. induction n as [|n IH]; intros B o s H; cbn [Owned.build_o]; [by split|].
  destruct (promise o s) as [[[aty sty ini body] a]|] eqn:Hp; [|by split].
  assert (pure_prog body) as Hb. { apply promise_Some in Hp as [_ Ho]. apply (HQ (BDef aty sty ini body)). by eapply H. }
  destruct (_ && _); [by split; intros ? ? [= <- <-]|]. destruct (ensure_dyn_state _ _ _ _ _) as [c [k|v]]; [by split; intros ? ? [= <- <-]|].
  cbn zeta. set (s1 := log _ _).
  pose proof (good_exec_o (build_o n) o a sty B body IH ∅ s1 Hb H) as [X1 X2].
  destruct (exec_o _ _ _ _ _ _ _ _) as [[b|e] s2|k s2| |].
  - specialize (X1 _ _ eq_refl). destruct (_ !! _); by split; intros ? ? [= <- <-].
  - specialize (X1 _ _ eq_refl). by split; intros ? ? [= <- <-].
  - specialize (X2 _ _ eq_refl). by split; intros ? ? [= <- <-].
  - by split.
  - by split.
Qed.

(** ** Termination *)
Context (HO : ∀ d, Q d → oblivious (bd_body d)).
Context (D : obj → option bdef) (σ : obj → option val).
Notation fits_t := (fits_t D σ).

Definition total_bo (n : nat) (bld : gset obj → obj → st → outcome bres) : Prop :=
  ∀ B o s d a A p rp, Inv s → shows s A → firm B A → all_fair A → all_borne B A (stack s) → borne B A o →
    rok A → good s → fits_t A → promise o s = Some (d, a) → cached s o = None →
    eval D σ n o p = Some rp → bld B o s ≠ NoFuel.

Lemma get_o_total n bld B h o s A p rp :
  total_bo n bld → Inv s → shows s A → firm B A → all_fair A → all_borne B A (stack s) → borne B A o →
  rok A → good s → fits_t A → eval D σ n o p = Some rp → get_o E (bld B) h o s ≠ NoFuel.
Proof.
  intros Ht I H Hfm Hfa Hbs Hbo K Hg Hf Hev. unfold get_o, get_with. destruct (promise o s) as [[d a]|] eqn:Hp; [|done].
  destruct (how_legal E h); [|done].
  rewrite (lookup_art_ok _ o s d a I Hp). pose proof (live_cached s o d a I Hp) as Hc.
  destruct (artifacts (ch s) !! a) as [e|] eqn:He; [done|]. cbn in Hc.
  pose proof (Ht B o s d a A p rp I H Hfm Hfa Hbs Hbo K Hg Hf Hp Hc Hev) as X.
  destruct (bld B o s) as [[e|e] s2|k s2| |]; try done. by destruct (_ =? _)%N.
Qed.

Lemma exec_o_total n bld u du ua S B v :
  sound_bo bld → (∀ B o s, good s → keeps_good (bld B o s)) → total_bo n bld →
  ∀ p L s A, pure_prog p → Inv s → shows s A → firm (B ∪ L) A → all_fair A → all_borne B A (u :: S) → owns (fields du) L p →
  rok A → good s → fits_t A →
  stack s = u :: S → objs s !! u = Some (du, ua) → r_conf A u = Some v →
  ∀ p' q rp, alike p p' → eval_body (eval D σ n) v p' q = Some rp →
  exec_o bld u ua (bd_sty du) B L p s ≠ NoFuel.
Proof.
  intros Hbs Hbg Hbt p.
  induction p as [r| |h w k IH|k IH|v' p IH|k IH|v' k IH|d k IH|w p IH];
    intros L0 s0 A0 Hpp I0 H0 Hf0 Hg0 HS0 Ho K0 Hgd0 Hft0 Hst0 Hu0 Hv0 p' q rp Ha Hev; cbn [Owned.exec_o]; cbn zeta; try (by destruct Hpp);
    match goal with |- context [locals ?x L0] => set (qq := x) in *; pose proof (locals_sub keep qq L0) as HL; set (L := locals qq L0) in * end;
    (destruct (settled_ok E fields (B ∪ L) s0 A0 (u :: S) I0 H0 Hst0) as (s & A & Hs & T1 & R1 & H & Hfm & [K1 K2 K3 K4 K5 K6 K7] & _);
      [eapply firm_sub; [exact Hf0|set_solver]|eapply all_borne_mono; [|done|exact HS0]; set_solver|]; rewrite Hs);
    pose proof (prims_Inv E _ _ (tu_prims _ _ _ _ T1) I0) as I;
    (destruct (others_grow _ _ _ _ R1 (good_wf s0 A0 I0 H0)) as [G0 E0];
     assert (stack s = u :: S) as Hst by (by rewrite (tu_stack _ _ _ _ T1));
     assert (objs s !! u = Some (du, ua)) as Hu by (by apply (tu_objs _ _ _ _ T1));
     assert (r_conf A u = Some v) as Hv by (rewrite (rg_conf _ _ G0); [done|rewrite (sh_who _ _ H0); by eexists]);
     pose proof (good_settled _ _ _ Hs Hgd0) as Hgd; pose proof (rgrow_rok _ _ G0 E0 K0) as K; pose proof (fits_t_grow _ _ _ _ Hft0 G0) as Hft);
    assert (all_fair A) as Hg by (unfold OwnedFacts.all_fair; rewrite K3; exact Hg0);
    assert (all_borne B A (u :: S)) as HS by (eapply all_borne_mono; [done| |exact HS0]; by rewrite K3);
    assert (∀ w, w ∈ fields du ∪ L → borne (B ∪ L) A w) as HM
      by (intros z [Hz|Hz]%elem_of_union;
          [destruct (HS u ltac:(left)) as (x & Hx & Hpth); exists x; (split; [set_solver|]); eapply rtc_r; [|exists du, ua; (split; [by rewrite (sh_who _ _ H)|exact Hz])];
            exact Hpth
          |exists z; (split; [set_solver|apply rtc_refl])]);
    clear s0 A0 I0 H0 K0 Hf0 Hg0 HS0 Hgd0 Hft0 Hst0 Hu0 Hv0 T1 G0 R1 K1 K2 K3 K4 K5 K6 K7 E0 Hs; try done.
  - cbn in Hpp. inversion Ha as [| |? ? ? k' Hkk| |]; subst. cbn [eval_body] in Hev. cbn [Owned.owns] in Ho. destruct Ho as (Hw & Hh & Hok).
    destruct (eval D σ n w q) as [[y q']|] eqn:Hw'; [|done].
    assert (all_borne (B ∪ L) A (u :: S)) as HS' by (eapply all_borne_mono; [|done|exact HS]; set_solver).
    pose proof (resolve_o_sound E fields keep bld (B ∪ L) u du ua S h w s A Hbs I H Hfm Hg Hst HS' (HM w Hw) Hu Hh) as S1. cbn zeta in S1.
    pose proof (good_resolve_o (bld (B ∪ L)) u ua h w s (Hbg (B ∪ L)) Hgd) as [R1 _].
    assert (resolve_o E (bld (B ∪ L)) u ua h w s ≠ NoFuel) as Hnf.
    { unfold resolve_o, resolve_with. destruct (promise w s) as [[d wa]|] eqn:Hp; [|done].
      destruct (shows_track E s A u S du ua w d wa I H Hst Hu Hp) as (c & -> & P1 & H1).
      set (s1 := log (EResolve u w) (set_ch c s)) in *. set (A1 := r_note _ _) in H1.
      assert (rgrow A A1) as G1 by (apply rgrow_ext; [done..|]; cbn; apply union_subseteq_r).
      pose proof (get_o_total n bld (B ∪ L) h w s1 A1 q (y, q') Hbt (prims_Inv E _ _ P1 I) H1) as X.
      specialize (X ltac:(by apply firm_note, firm_use, firm_meet) Hg ltac:(change (stack s1) with (stack s); rewrite Hst; exact HS') (HM w Hw)).
      specialize (X (rgrow_rok _ _ G1 eq_refl K) Hgd (fits_t_grow _ _ _ _ Hft G1) Hw').
      unfold get_o in X. by destruct (get_with E (bld (B ∪ L)) h w s1). }
    destruct (resolve_o E (bld (B ∪ L)) u ua h w s) as [r s1|pk s1| |] eqn:Hr; try done.
    destruct S1 as (G1 & Hst1 & A1 & Ht & H1 & Hf1 & Hg1). specialize (R1 _ _ eq_refl).
    set (A0 := r_note _ _) in Ht. assert (rgrow A A0) as G0 by (apply rgrow_ext; [done..|]; cbn; apply union_subseteq_r).
    set (A2 := r_note _ A1) in H1, Hf1. destruct (good_rpure Q HQ HO s1 A2 R1 H1) as [Hpu _].
    destruct (proj1 (all_fine _ _) _ _ _ _ _ _ Ht (good_wf s A I H) Hpu (rgrow_rok _ _ G0 eq_refl K)) as (K1 & GG & x & Hx & ->).
    assert (rgrow A1 A2) as G2 by (by apply rgrow_ext).
    assert (rgrow A A2) as G02 by (eapply rgrow_trans; [exact G0|]; eapply rgrow_trans; [exact GG|exact G2]).
    pose proof (fits_t_grow _ _ _ _ Hft G02) as Hf2.
    pose proof (fits_t_same Q HQ HO D σ s1 A2 n w (EvRet x) q y q' R1 H1 Hf2 (proj1 (rgrow_ev _ _ G2) _ _ Hx) Hw') as Hxy.
    destruct y as [y|]; [|done]. cbn in Hxy. injection Hxy as Hxy.
    eapply (IH (handed h x) (L ∪ mentions_rv (handed h x)) s1 A2); [apply Hpp|apply G1|done|by rewrite (assoc_L (∪))|done| |apply Hok
      |by apply (rgrow_rok A1)|done|done|done|by apply G1| |apply Hkk; by apply strip_handed|exact Hev].
    + eapply all_borne_mono; [done| |exact HS]. exact (grows_who s s1 A A2 G1 H H1).
    + rewrite (rg_conf _ _ G02); [done|]. rewrite (sh_who _ _ H). by eexists.
  - cbn in Hpp. destruct (my_state_at E s u S du ua I Hst Hu) as (v' & -> & Hv' & _).
    assert (v' = v) as ->. { unfold r_conf in Hv. rewrite (sh_state _ _ H), Hv' in Hv. congruence. }
    inversion Ha as [| | |? k' Hkk|]; subst. cbn [eval_body] in Hev.
    eapply (IH v (L ∪ mentions v) s A); [apply Hpp|done|done| |done|done|apply Ho|done|done|done|done|done|done|apply Hkk|exact Hev].
    rewrite (assoc_L (∪)). apply firm_more; [done|]. intros w Hw. apply (fm_stored _ _ _ Hfm). right. exists u, v. by rewrite (sh_state _ _ H).
  - cbn in Hpp. inversion Ha as [| | | |? x' ? k' Hxx Hkk]; subst. cbn [eval_body] in Hev.
    set (s1 := set_nbin _ s). pose proof (shows_newbin s A H) as H1. assert (rgrow A (r_newbin A)) as G1 by (by apply rgrow_ext).
    eapply (IH (Bin (nbin s) v') L s1 (r_newbin A)); [apply Hpp| |done|by apply firm_newbin|done|done|apply Ho|by apply (rgrow_rok A)|done|by apply (fits_t_grow _ _ A)|done|done|done
      | |exact Hev].
    + eapply (prim_Inv E); [apply (pm_newbin E)|done].
    + by apply Hkk.
Qed.

Lemma build_o_total n : total_bo n (build_o n).
Proof.
  induction n as [|n IH]; intros B o s d a A p rp I H Hfm Hfa HS Hbo K Hg Hf Hp Hc Hev; [done|]. cbn [Owned.build_o]. rewrite Hp. destruct d as [aty sty ini body].
  pose proof (cached_None s o _ a I Hp Hc) as Ha.
  unfold contains_artifact. rewrite Ha. rewrite bool_decide_eq_false_2 by (by intros [? ?]). rewrite andb_false_r.
  destruct (build_start E o s _ a A I H Hp Hc) as (c2 & Hst). cbn [bd_sty bd_init] in Hst.
  apply promise_Some in Hp as Hp'. destruct Hp' as [Hal Ho].
  destruct (r_addr_at s A o _ a H Ho) as (_ & Hdef & _).
  pose proof (sh_state _ _ H o) as Hrs.
  assert (r_who A !! o = Some (BDef aty sty ini body, a)) as Hwho by (by rewrite (sh_who _ _ H)).
  assert (state_of s o = None ∧ ini = None ∨ ∃ v, (state_of s o = Some v ∨ state_of s o = None ∧ ini = Some v) ∧
      ensure_dyn_state a o sty ini (make_known a o (ch s)) = (c2, inr v) ∧
      let s1 := log (ECall o) (set_reent (reent s || bool_decide (o ∈ stack s)) (set_stack (o :: stack s) (set_ch c2 s))) in
      rtc (Prims.prim E) s s1 ∧ Inv s1 ∧ shows s1 (r_note (ECall o) (r_put o v (r_meet o A)))) as [[Hn Hi]|(v & Hv & -> & P1 & I1 & H1)].
  { destruct (state_of s o) as [v|], ini as [v'|]; [right; done..|left; done]. }
  { subst ini. rewrite Hn in Hst. destruct Hst as [He _]. by rewrite He. }
  assert (r_state A !! o = Some v ∨ r_state A !! o = None ∧ bd_init (BDef aty sty ini body) = Some v) as Hv' by (by rewrite Hrs).
  cbn zeta. set (s1 := log _ _) in *. destruct (start_grow o v _ A Hdef Hv') as [G1 Hc1]. set (A1 := r_note _ _) in *.
  cbn [eval] in Hev. destruct (D o) as [d'|] eqn:HB; [|by destruct (σ o)].
  destruct (Hf o d' HB) as [Hd' Hs']. assert (d' = BDef aty sty ini body) as -> by congruence. rewrite <- Hs', Hc1 in Hev. cbn [bd_body] in Hev.
  assert (Q (BDef aty sty ini body)) as HQb by (by eapply Hg).
  destruct (Hfa o _ _ Hwho) as [[Hfi Hfb] _].
  assert (exec_o (build_o n) o a sty B ∅ body s1 ≠ NoFuel) as Hx.
  { eapply (exec_o_total n (build_o n) o (BDef aty sty ini body) a (stack s) B v (build_o_sound E fields keep n) (good_build_o n) IH body ∅ s1 A1);
      [by apply (HQ _ HQb)|done|exact H1| |exact Hfa| |exact Hfb|by apply (rgrow_rok A)|done|by apply (fits_t_grow _ _ A)|done|done| |by apply (HO _ HQb)|exact Hev].
    - rewrite (right_id_L ∅ (∪)). apply firm_note, firm_put; [by apply firm_meet|]. intros w Hw.
      destruct Hv' as [Hv'|[_ Hv']]; [apply (fm_stored _ _ _ Hfm); right; eauto|]. apply (fm_part _ _ _ Hfm o); [by apply (borne_live _ _ _ _ Hfm)|].
      exists (BDef aty sty ini body), a. split; [done|]. apply Hfi. by rewrite Hv'.
    - intros w [->|Hw]%elem_of_cons; [exact Hbo|by apply HS].
    - rewrite (rg_conf _ _ G1); [done|]. by eapply def_who. }
  destruct (exec_o (build_o n) o a sty B ∅ body s1) as [[b|e] s2|k s2| |]; try done.
  cbn [artifacts set_artifacts]. by rewrite lookup_insert.
Qed.
End OwnedTotal.
