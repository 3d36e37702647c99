(** The model of the code refines the reference cache: running builders. *)
From Verif Require Export RefFacts.
From stdpp Require Import relations.

Lemma r_put_id o v A : r_state A !! o = Some v → r_put o v A = A.
Proof. intros H. destruct A. unfold r_put. cbn in *. by rewrite insert_id. Qed.

Section RefBuild.
Context (E : env).
Notation prim := (prim E).
Notation prims := (rtc prim).
Notation rget := (rget (e_ask E) (e_kind E)).
Notation rbuild := (rbuild (e_ask E) (e_kind E)).
Notation rrun := (rrun (e_ask E) (e_kind E)).

Lemma legal_iff h : how_legal E h = true ↔ r_legal (e_kind E) h.
Proof. unfold how_legal, r_legal. destruct (e_kind E), h; split; intros; try done; naive_solver. Qed.

(** Entering a build. *)
Lemma build_start o s d a A :
  Inv s → shows s A → promise o s = Some (d, a) → cached s o = None →
  ∃ c2, 
  match state_of s o, bd_init d with
  | None, None => ensure_dyn_state a o (bd_sty d) (bd_init d) (make_known a o (ch s)) = (c2, inl PkUser) ∧
      shows (set_ch c2 s) (r_meet o A)
  | sv, iv => ∃ v, (sv = Some v ∨ sv = None ∧ iv = Some v) ∧
      ensure_dyn_state a o (bd_sty d) (bd_init d) (make_known a o (ch s)) = (c2, inr v) ∧
      let s1 := log (ECall o) (set_reent (reent s || bool_decide (o ∈ stack s)) (set_stack (o :: stack s) (set_ch c2 s))) in
      prims s s1 ∧ Inv s1 ∧ shows s1 (r_note (ECall o) (r_put o v (r_meet o A)))
  end.
Proof.
  intros I H Hp Hc. apply promise_Some in Hp as Hp'. destruct Hp' as [Hal Ho].
  assert (prim s (set_ch (make_known a o (ch s)) s)) as Pk by (eapply pm_know; eauto).
  pose proof (prim_Inv E _ _ Pk I) as I1.
  pose proof (shows_meet s A o d a I H Hp) as H1.
  assert (known (make_known a o (ch s)) !! a = Some o) as Hk1.
  { destruct (make_known_known a o (ch s)) as [z Hz]. rewrite Hz. f_equal.
    exact (Inv_known_is (set_ch (make_known a o (ch s)) s) o d a z I1 Hp Hz). }
  destruct (make_known_fields a o (ch s)) as (F1 & F2 & _).
  assert (artifacts (ch s) !! a = None) as Ha.
  { rewrite (live_cached s o d a I Hp) in Hc. by destruct (artifacts (ch s) !! a). }
  unfold ensure_dyn_state. rewrite make_known_idem, F2.
  pose proof (live_state s o d a I Hp) as Hst.
  destruct (dyn_states (ch s) !! a) as [dv|] eqn:Hdv; cbn in Hst; rewrite Hst.
  - exists (make_known a o (ch s)). exists (ds_val dv). split; [by left|].
    rewrite (ci_dyn_ty _ _ (i_c _ I1) a dv o d); [|cbn; by rewrite F2|exact Hk1|exact Ho].
    rewrite N.eqb_refl. split; [done|]. set (s1 := log _ _).
    assert (prims s s1) as P1.
    { eapply rtc_l; [exact Pk|]. apply rtc_once. eapply (pm_push E (set_ch (make_known a o (ch s)) s) o d a Hp); cbn.
      - rewrite Hk1. eauto.
      - rewrite F2, Hdv. eauto.
      - by rewrite F1. }
    split; [done|]. split; [by eapply prims_Inv|].
    apply shows_log, shows_reent, shows_stack. rewrite r_put_id; [done|]. cbn. by rewrite (sh_state _ _ H).
  - destruct (bd_init d) as [v|] eqn:Hi.
    + exists (set_dyn_states <[a:=Dst (bd_sty d) v]> (make_known a o (ch s))), v. split; [by right|]. split; [done|]. set (s1 := log _ _).
      assert (prim (set_ch (make_known a o (ch s)) s) (set_ch (set_dyn_states <[a:=Dst (bd_sty d) v]> (make_known a o (ch s))) s)) as Pd.
      { eapply (pm_dyn E (set_ch (make_known a o (ch s)) s) o d a v Hp); [cbn; rewrite Hk1; eauto|cbn; by rewrite F2|done]. }
      assert (prims s s1) as P1.
      { eapply rtc_l; [exact Pk|]. eapply rtc_l; [exact Pd|]. apply rtc_once.
        eapply (pm_push E (set_ch (set_dyn_states <[a:=Dst (bd_sty d) v]> (make_known a o (ch s))) s) o d a Hp); cbn.
        - rewrite Hk1. eauto.
        - rewrite lookup_insert. eauto.
        - by rewrite F1. }
      split; [done|]. split; [by eapply prims_Inv|].
      apply shows_log, shows_reent, shows_stack. exact (shows_put _ _ o d a (bd_sty d) v I1 H1 Ho Hk1).
    + exists (make_known a o (ch s)). split; [done|exact H1].
Qed.

(** The state of a builder being built. *)
Lemma my_state_at s u S du ua :
  Inv s → stack s = u :: S → objs s !! u = Some (du, ua) →
  ∃ v, my_state (e_dbg E) ua (bd_sty du) (ch s) = inr v ∧ state_of s u = Some v ∧
    known (ch s) !! ua = Some u ∧ is_Some (dyn_states (ch s) !! ua).
Proof.
  intros I Hst Hu. destruct (i_stack _ I u) as (Hal & d & a & Ho & Hk & [dv Hd]); [rewrite Hst; left|].
  assert (d = du ∧ a = ua) as [-> ->] by (split; congruence).
  exists (ds_val dv). rewrite (state_at s u du ua Hu Hk), Hd. cbn. split_and!; [|done..|eauto].
  unfold my_state, is_known. rewrite Hk, Hd. rewrite !bool_decide_eq_true_2 by eauto. rewrite !andb_false_r.
  by rewrite (ci_dyn_ty _ _ (i_c _ I) ua dv u du Hd Hk Hu), N.eqb_refl.
Qed.

Lemma cached_None s o d a : Inv s → promise o s = Some (d, a) → cached s o = None → artifacts (ch s) !! a = None.
Proof. intros I Hp. rewrite (live_cached s o d a I Hp). by destruct (artifacts (ch s) !! a). Qed.

(** ** Soundness *)

Definition built_res (r : bres) : result := match r with BOk e => Ok (ar_bin e) | BErr e => Err e end.

Definition sound_build (bld : obj → st → outcome bres) : Prop :=
  ∀ o s d a A, Inv s → shows s A → promise o s = Some (d, a) → cached s o = None →
  (∀ r s', bld o s = Done r s' → (∀ e, r = BOk e → ar_ty e = bd_aty d) ∧
     ∃ A', rbuild (stack s) o A (Some (built_res r)) A' ∧ shows s' A') ∧
  (∀ k s', bld o s = Panic k s' → k = PkUser ∧ ∃ A', rbuild (stack s) o A None A' ∧ shows s' A').

Lemma get_sound bld h o s A :
  sound_build bld → Inv s → shows s A →
  (∀ r s', get_with E bld h o s = Done r s' → ∃ A', rget (stack s) h o A (Some r) A' ∧ shows s' A') ∧
  (∀ k s', get_with E bld h o s = Panic k s' → k = PkUser ∧ ∃ A', rget (stack s) h o A None A' ∧ shows s' A').
Proof.
  intros Hb I H. unfold get_with. destruct (promise o s) as [[d a]|] eqn:Hp; [|done].
  destruct (how_legal E h) eqn:Hh; [|done]. apply legal_iff in Hh.
  rewrite (lookup_art_ok _ o s d a I Hp).
  assert (o ∈ r_live A) as Hl by (rewrite (sh_live _ _ H); by apply promise_Some in Hp as [? _]).
  pose proof (live_cached s o d a I Hp) as Hc. pose proof (sh_art _ _ H o) as Hra.
  destruct (artifacts (ch s) !! a) as [e|] eqn:He; cbn in Hc.
  - split; [|done]. intros r s' [= <- <-]. exists A. split; [|done]. apply rget_hit; [done..|]. congruence.
  - destruct (Hb o s d a A I H Hp Hc) as [B1 B2].
    destruct (bld o s) as [[e|e] s1|k s1| |] eqn:Hbo; try done.
    + destruct (B1 _ _ eq_refl) as (Hty & A' & Hr & Hs). rewrite (Hty e eq_refl), N.eqb_refl. split; [|done].
      intros r s' [= <- <-]. exists A'. split; [|done]. eapply rget_built; [done..|congruence|exact Hr].
    + destruct (B1 _ _ eq_refl) as (_ & A' & Hr & Hs). split; [|done].
      intros r s' [= <- <-]. exists A'. split; [|done]. eapply rget_failed; [done..|congruence|exact Hr].
    + destruct (B2 _ _ eq_refl) as (-> & A' & Hr & Hs). split; [done|].
      intros k s' [= <- <-]. split; [done|]. exists A'. split; [|done]. eapply rget_panicked; [done..|congruence|exact Hr].
Qed.

Lemma resolve_sound bld u du ua S h w s A :
  sound_build bld → Inv s → shows s A → stack s = u :: S → objs s !! u = Some (du, ua) →
  let A0 := r_note (EResolve u w) (r_use u w (r_meet w A)) in
  (∀ r s', resolve_with E bld u ua h w s = Done r s' → ∃ A', rget (u :: S) h w A0 (Some r) A' ∧ shows s' (r_note (EGot u w r) A')) ∧
  (∀ k s', resolve_with E bld u ua h w s = Panic k s' → k = PkUser ∧ ∃ A', rget (u :: S) h w A0 None A' ∧ shows s' A').
Proof.
  intros Hb I H Hst Hu A0. unfold resolve_with. destruct (promise w s) as [[d wa]|] eqn:Hp; [|done].
  destruct (shows_track E s A u S du ua w d wa I H Hst Hu Hp) as (c & -> & P1 & H1).
  pose proof (prims_Inv E _ _ P1 I) as I1. set (s1 := log (EResolve u w) (set_ch c s)) in *.
  destruct (get_sound bld h w s1 A0 Hb I1 H1) as [G1 G2]. assert (stack s1 = u :: S) as Hst1 by exact Hst. rewrite Hst1 in G1, G2.
  destruct (get_with E bld h w s1) as [r s2|k s2| |] eqn:Hg; try done.
  destruct (G1 _ _ eq_refl) as (A1 & Hr & Hs). split; [|done]. intros r' s' [= <- <-]. exists A1. split; [done|]. by apply shows_log.
Qed.

Lemma run_sound bld u du ua S :
  sound_build bld → bld_ok E bld → ∀ p s A, Inv s → shows s A → stack s = u :: S → objs s !! u = Some (du, ua) →
  (∀ r s', exec E bld u ua (bd_sty du) p s = Done r s' → ∃ A', rrun (u :: S) u p A (Some r) A' ∧ shows s' A') ∧
  (∀ k s', exec E bld u ua (bd_sty du) p s = Panic k s' → k = PkUser ∧ ∃ A', rrun (u :: S) u p A None A' ∧ shows s' A').
Proof.
  intros Hb Hbo p. induction p as [r| |h w k IH|k IH|v p IH|k IH|v k IH|d k IH|w p IH]; intros s A I H Hst Hu; cbn [exec].
  - split; [|done]. intros r' s' [= <- <-]. exists A. split; [constructor|done].
  - split; [done|]. intros k' s' [= <- <-]. split; [done|]. exists A. split; [constructor|done].
  - destruct (resolve_with_prims E bld u du ua h w s S Hbo (i_wf _ I) Hst Hu) as [R1 R2].
    destruct (resolve_sound bld u du ua S h w s A Hb I H Hst Hu) as [S1 S2].
    destruct (resolve_with E bld u ua h w s) as [r s1|pk s1| |] eqn:Hr; try done.
    + assert (prims s s1) as P1 by (apply R1; left; eauto).
      destruct (S1 _ _ eq_refl) as (A1 & G1 & H1).
      destruct (IH r s1 _ (prims_Inv E _ _ P1 I) H1) as [X1 X2].
      { by rewrite (R2 _ _ eq_refl). }
      { exact (prims_objs E s s1 u _ P1 (i_wf _ I) Hu). }
      split.
      * intros r' s' Hx. destruct (X1 _ _ Hx) as (A2 & Y & Z). exists A2. split; [|done]. by eapply rrun_resolve.
      * intros k' s' Hx. destruct (X2 _ _ Hx) as (-> & A2 & Y & Z). split; [done|]. exists A2. split; [|done]. by eapply rrun_resolve.
    + split; [done|]. intros k' s' [= <- <-]. destruct (S2 _ _ eq_refl) as (-> & A1 & G1 & H1). split; [done|].
      exists A1. split; [|done]. by eapply rrun_resolve_panic.
  - destruct (my_state_at s u S du ua I Hst Hu) as (v & -> & Hv & _).
    assert (r_state A !! u = Some v) as Hv' by (by rewrite (sh_state _ _ H)).
    destruct (IH v s A I H Hst Hu) as [X1 X2]. split.
    + intros r' s' Hx. destruct (X1 _ _ Hx) as (A2 & Y & Z). exists A2. split; [|done]. by eapply rrun_state.
    + intros k' s' Hx. destruct (X2 _ _ Hx) as (-> & A2 & Y & Z). split; [done|]. exists A2. split; [|done]. by eapply rrun_state.
  - destruct (my_state_at s u S du ua I Hst Hu) as (v' & -> & Hv & Hk & Hd).
    set (s1 := set_ch _ s). assert (prim s s1) as P1 by (eapply pm_set; eauto).
    destruct (IH s1 (r_put u v A) (prim_Inv E _ _ P1 I)) as [X1 X2]; [by eapply shows_put|done|done|]. split.
    + intros r' s' Hx. destruct (X1 _ _ Hx) as (A2 & Y & Z). exists A2. split; [|done]. by eapply rrun_set.
    + intros k' s' Hx. destruct (X2 _ _ Hx) as (-> & A2 & Y & Z). split; [done|]. exists A2. split; [|done]. by eapply rrun_set.
  - assert (prim s (tock s)) as P1 by constructor. rewrite <- (sh_tick _ _ H).
    destruct (IH (e_ask E (r_tick A)) (tock s) (r_tock A) (prim_Inv E _ _ P1 I)) as [X1 X2]; [by apply shows_tock|done|done|]. split.
    + intros r' s' Hx. destruct (X1 _ _ Hx) as (A2 & Y & Z). exists A2. split; [|done]. by eapply rrun_ask.
    + intros k' s' Hx. destruct (X2 _ _ Hx) as (-> & A2 & Y & Z). split; [done|]. exists A2. split; [|done]. by eapply rrun_ask.
  - assert (prim s (set_nbin (N.succ (nbin s)) s)) as P1 by constructor. pose proof (shows_newbin s A H) as H1.
    destruct (IH (Bin (nbin s) v) _ _ (prim_Inv E _ _ P1 I) H1) as [X1 X2]; [done|done|].
    rewrite <- (sh_nbin _ _ H) in X1, X2 |- *. split.
    + intros r' s' Hx. destruct (X1 _ _ Hx) as (A2 & Y & Z). exists A2. split; [|done]. by eapply rrun_newbin.
    + intros k' s' Hx. destruct (X2 _ _ Hx) as (-> & A2 & Y & Z). split; [done|]. exists A2. split; [|done]. by eapply rrun_newbin.
  - pose proof (alloc_iff E s A d I H) as Ha. destruct (alloc E d s) as [[o s1]|] eqn:Hal; [|done].
    destruct Ha as (Hfr & -> & H1). assert (prim s s1) as P1 by (eapply pm_alloc; exact Hal).
    assert (stack s1 = stack s) as Hst1 by (by apply alloc_Some in Hal as (_ & -> & _)).
    destruct (IH (r_nobj A) s1 _ (prim_Inv E _ _ P1 I) H1) as [X1 X2]; [by rewrite Hst1|exact (prim_objs E s s1 u _ P1 (i_wf _ I) Hu)|]. split.
    + intros r' s' Hx. destruct (X1 _ _ Hx) as (A2 & Y & Z). exists A2. split; [|done]. by eapply rrun_new.
    + intros k' s' Hx. destruct (X2 _ _ Hx) as (-> & A2 & Y & Z). split; [done|]. exists A2. split; [|done]. by eapply rrun_new.
  - pose proof (drop_iff s A w H) as Ha. destruct (drop_obj w s) as [s1|] eqn:Hal; [|done].
    destruct Ha as (Hl & Hns & H1). assert (prim s s1) as P1 by (eapply pm_drop; exact Hal). rewrite Hst in Hns.
    assert (stack s1 = stack s) as Hst1 by (by apply drop_Some in Hal as (_ & _ & ->)).
    destruct (IH s1 _ (prim_Inv E _ _ P1 I) H1) as [X1 X2]; [by rewrite Hst1|exact (prim_objs E s s1 u _ P1 (i_wf _ I) Hu)|]. split.
    + intros r' s' Hx. destruct (X1 _ _ Hx) as (A2 & Y & Z). exists A2. split; [|done]. by eapply rrun_drop.
    + intros k' s' Hx. destruct (X2 _ _ Hx) as (-> & A2 & Y & Z). split; [done|]. exists A2. split; [|done]. by eapply rrun_drop.
Qed.

Lemma build_sound n : sound_build (build E n).
Proof.
  induction n as [|n IHn]; intros o s d a A I H Hp Hc; cbn [build]; [done|].
  rewrite Hp. destruct d as [aty sty ini body].
  pose proof (cached_None s o _ a I Hp Hc) as Ha.
  unfold contains_artifact. rewrite Ha. rewrite bool_decide_eq_false_2 by (by intros [? ?]). rewrite andb_false_r.
  destruct (build_start o s _ a A I H Hp Hc) as (c2 & Hst). cbn [bd_sty bd_init] in Hst.
  apply promise_Some in Hp as Hp'. destruct Hp' as [Hal Ho].
  destruct (r_addr_at s A o _ a H Ho) as (_ & Hdef & _).
  pose proof (sh_state _ _ H o) as Hrs.
  assert (state_of s o = None ∧ ini = None ∨ ∃ v, (state_of s o = Some v ∨ state_of s o = None ∧ ini = Some v) ∧
      ensure_dyn_state a o sty ini (make_known a o (ch s)) = (c2, inr v) ∧
      let s1 := log (ECall o) (set_reent (reent s || bool_decide (o ∈ stack s)) (set_stack (o :: stack s) (set_ch c2 s))) in
      prims s s1 ∧ Inv s1 ∧ shows s1 (r_note (ECall o) (r_put o v (r_meet o A)))) as [[Hn Hi]|(v & Hv & -> & P1 & I1 & H1)].
  { destruct (state_of s o) as [v|], ini as [v'|]; [right; done..|left; done]. }
  { rewrite Hn, Hi in Hst. rewrite Hi. destruct Hst as [-> H1]. split; [done|]. intros k s' [= <- <-]. split; [done|].
    exists (r_meet o A). split; [|exact H1]. eapply rbuild_noinit; [exact Hdef|congruence|cbn; done]. }
  clear Hst. rewrite <- Hrs in Hv. set (s1 := log _ _) in *.
  destruct (run_sound (build E n) o (BDef aty sty ini body) a (stack s) IHn (build_bld_ok E n) body s1 _ I1 H1 eq_refl) as [X1 X2].
  { exact Ho. }
  destruct (exec_prims E (build E n) o (BDef aty sty ini body) a (stack s) (build_bld_ok E n) body s1 (i_wf _ I1) eq_refl Ho) as [Q1 Q2].
  cbn [bd_sty] in X1, X2, Q1, Q2.
  destruct (exec E (build E n) o a sty body s1) as [[b|e] s2|k s2| |] eqn:Hx; try done.
  - destruct (X1 _ _ eq_refl) as (A2 & Y & Z). assert (prims s1 s2) as P2 by (apply Q1; left; eauto).
    pose proof (prims_Inv E _ _ P2 I1) as I2. pose proof (Q2 _ _ eq_refl) as Hst2.
    assert (objs s2 !! o = Some (BDef aty sty ini body, a)) as Ho2 by exact (prims_objs E s1 s2 o _ P2 (i_wf _ I1) Ho).
    destruct (my_state_at s2 o (stack s) _ a I2 Hst2 Ho2) as (_ & _ & _ & Hk2 & _).
    cbn [artifacts set_artifacts]. rewrite lookup_insert. split; [|done].
    intros r s' [= <- <-]. split; [intros e [= <-]; done|]. exists (r_note (EBuilt o b) (r_store o b A2)). split.
    + eapply rbuild_ok; [exact Hdef|exact Hv|exact Y].
    + apply shows_stack, shows_log. exact (shows_store s2 A2 o _ a aty b I2 Z Ho2 Hk2).
  - destruct (X1 _ _ eq_refl) as (A2 & Y & Z). split; [|done]. intros r s' [= <- <-]. split; [done|].
    eexists. split; [eapply rbuild_err; [exact Hdef|exact Hv|exact Y]|]. by apply shows_stack, shows_log.
  - destruct (X2 _ _ eq_refl) as (-> & A2 & Y & Z). split; [done|]. intros k s' [= <- <-]. split; [done|].
    exists A2. split; [|done]. eapply rbuild_panic; [exact Hdef|exact Hv|exact Y].
Qed.

(** ** Completeness *)

Definition comp_get (B : list obj) (h : how) (o : obj) (A : ref) (x : option rval) (A' : ref) : Prop :=
  ∀ s, Inv s → shows s A → stack s = B →
  ∃ n0 s', shows s' A' ∧ ∀ n, n0 ≤ n → get E n h o s = match x with Some r => Done r s' | None => Panic PkUser s' end.
Definition comp_build (B : list obj) (o : obj) (A : ref) (x : option result) (A' : ref) : Prop :=
  ∀ s d a, Inv s → shows s A → stack s = B → promise o s = Some (d, a) → cached s o = None →
  ∃ n0 s', shows s' A' ∧ ∀ n, n0 ≤ n → build E n o s =
    match x with
    | Some (Ok b) => Done (BOk (Art (bd_aty d) b)) s'
    | Some (Err e) => Done (BErr e) s'
    | None => Panic PkUser s'
    end.
Definition comp_run (B : list obj) (u : obj) (p : prog) (A : ref) (x : option result) (A' : ref) : Prop :=
  ∀ s S du ua, Inv s → shows s A → stack s = B → B = u :: S → objs s !! u = Some (du, ua) →
  ∃ n0 s', shows s' A' ∧ ∀ n, n0 ≤ n → exec E (build E n) u ua (bd_sty du) p s =
    match x with Some r => Done r s' | None => Panic PkUser s' end.

Lemma get_live s A o : Inv s → shows s A → o ∈ r_live A → ∃ d a, promise o s = Some (d, a).
Proof.
  intros I H Hl. rewrite (sh_live _ _ H) in Hl. destruct (i_alive _ I o Hl) as [[d a] Ho].
  exists d, a. apply promise_Some. split; done.
Qed.

Lemma get_missing s o d a n h :
  Inv s → promise o s = Some (d, a) → r_legal (e_kind E) h → cached s o = None →
  get E n h o s =
  match build E n o s with
  | Done (BOk e) s' => if (ar_ty e =? bd_aty d)%N then Done (conv h (ar_bin e)) s' else Panic PkDowncast s'
  | Done (BErr e) s' => Done (RvErr e) s'
  | Panic k s' => Panic k s'
  | NoFuel => NoFuel
  | Illegal => Illegal
  end.
Proof.
  intros I Hp Hh Hc. unfold get, get_with. rewrite Hp. apply legal_iff in Hh. rewrite Hh.
  rewrite (lookup_art_ok _ o s d a I Hp), (cached_None s o d a I Hp Hc). done.
Qed.

Lemma build_go o s d a A v :
  Inv s → shows s A → promise o s = Some (d, a) → cached s o = None →
  (r_state A !! o = Some v ∨ r_state A !! o = None ∧ bd_init d = Some v) →
  ∃ s1, Inv s1 ∧ shows s1 (r_note (ECall o) (r_put o v (r_meet o A))) ∧ stack s1 = o :: stack s ∧ objs s1 !! o = Some (d, a) ∧
    ∀ n, build E (S n) o s =
      match exec E (build E n) o a (bd_sty d) (bd_body d) s1 with
      | Done (Ok b) s2 =>
          Done (BOk (Art (bd_aty d) b)) (set_stack (stack s) (log (EBuilt o b) (set_ch (set_artifacts <[a := Art (bd_aty d) b]> (ch s2)) s2)))
      | Done (Err e) s2 => Done (BErr e) (set_stack (stack s) (log (EFailed o e) s2))
      | Panic k s2 => Panic k s2
      | NoFuel => NoFuel
      | Illegal => Illegal
      end.
Proof.
  intros I H Hp Hc Hv. destruct (build_start o s d a A I H Hp Hc) as (c2 & Hst).
  pose proof (cached_None s o _ a I Hp Hc) as Ha. rewrite (sh_state _ _ H) in Hv.
  apply promise_Some in Hp as Hp'. destruct Hp' as [_ Ho].
  assert (∃ v', (state_of s o = Some v' ∨ state_of s o = None ∧ bd_init d = Some v') ∧
      ensure_dyn_state a o (bd_sty d) (bd_init d) (make_known a o (ch s)) = (c2, inr v') ∧
      let s1 := log (ECall o) (set_reent (reent s || bool_decide (o ∈ stack s)) (set_stack (o :: stack s) (set_ch c2 s))) in
      prims s s1 ∧ Inv s1 ∧ shows s1 (r_note (ECall o) (r_put o v' (r_meet o A)))) as (v' & Hv' & He & P1 & I1 & H1).
  { destruct Hv as [Hv|[Hv Hi]]; [rewrite Hv in Hst|rewrite Hv, Hi in Hst]; [by destruct (bd_init d); rewrite Hv|by rewrite Hv, Hi]. }
  assert (v' = v) as -> by (destruct Hv as [?|[? ?]], Hv' as [?|[? ?]]; congruence).
  eexists. split; [exact I1|]. split; [exact H1|]. split; [done|]. split; [exact Ho|]. intros n. cbn [build]. rewrite Hp.
  destruct d as [aty sty ini body]. cbn [bd_sty bd_init bd_body bd_aty] in *.
  unfold contains_artifact. rewrite Ha. rewrite bool_decide_eq_false_2 by (by intros [? ?]). rewrite andb_false_r, He.
  destruct (exec _ _ _ _ _ _ _) as [[b|e] s2|k s2| |]; try done. cbn [artifacts set_artifacts]. by rewrite lookup_insert.
Qed.

Scheme rget_min := Minimality for Reference.rget Sort Prop
  with rbuild_min := Minimality for Reference.rbuild Sort Prop
  with rrun_min := Minimality for Reference.rrun Sort Prop.
Combined Scheme ref_min from rget_min, rbuild_min, rrun_min.

Lemma exec_keeps n u du ua S p s r s' :
  Inv s → stack s = u :: S → objs s !! u = Some (du, ua) →
  exec E (build E n) u ua (bd_sty du) p s = Done r s' →
  Inv s' ∧ stack s' = u :: S ∧ objs s' !! u = Some (du, ua).
Proof.
  intros I Hst Hu Hx.
  destruct (exec_prims E (build E n) u du ua S (build_bld_ok E n) p s (i_wf _ I) Hst Hu) as [Q1 Q2].
  assert (prims s s') as P by (apply Q1; left; eauto).
  split; [exact (prims_Inv E _ _ P I)|]. split; [rewrite (Q2 _ _ Hx); exact Hst|]. exact (prims_objs E s s' u _ P (i_wf _ I) Hu).
Qed.

Lemma build_complete :
  (∀ B h o A x A', rget B h o A x A' → comp_get B h o A x A') ∧
  (∀ B o A x A', rbuild B o A x A' → comp_build B o A x A') ∧
  (∀ B u p A x A', rrun B u p A x A' → comp_run B u p A x A').
Proof.
  apply ref_min.
  - intros B h o A b Hl Hh Hb s I H Hst. destruct (get_live s A o I H Hl) as (d & a & Hp).
    exists 0, s. split; [done|]. intros n _. unfold get, get_with. rewrite Hp. apply legal_iff in Hh. rewrite Hh.
    rewrite (lookup_art_ok _ o s d a I Hp). rewrite (sh_art _ _ H), (live_cached s o d a I Hp) in Hb.
    destruct (artifacts (ch s) !! a); [|done]. by injection Hb as <-.
  - intros B h o A b A' Hl Hh Hb Hr IH s I H Hst. destruct (get_live s A o I H Hl) as (d & a & Hp).
    rewrite (sh_art _ _ H) in Hb. destruct (IH s d a I H Hst Hp Hb) as (n0 & s' & Hs & Hn).
    exists n0, s'. split; [done|]. intros n Hle. rewrite (get_missing s o d a n h I Hp Hh Hb), (Hn n Hle). cbn. by rewrite N.eqb_refl.
  - intros B h o A e A' Hl Hh Hb Hr IH s I H Hst. destruct (get_live s A o I H Hl) as (d & a & Hp).
    rewrite (sh_art _ _ H) in Hb. destruct (IH s d a I H Hst Hp Hb) as (n0 & s' & Hs & Hn).
    exists n0, s'. split; [done|]. intros n Hle. by rewrite (get_missing s o d a n h I Hp Hh Hb), (Hn n Hle).
  - intros B h o A A' Hl Hh Hb Hr IH s I H Hst. destruct (get_live s A o I H Hl) as (d & a & Hp).
    rewrite (sh_art _ _ H) in Hb. destruct (IH s d a I H Hst Hp Hb) as (n0 & s' & Hs & Hn).
    exists n0, s'. split; [done|]. intros n Hle. by rewrite (get_missing s o d a n h I Hp Hh Hb), (Hn n Hle).
  - intros B o A d0 Hd Hs0 Hi s d a I H Hst Hp Hc. rewrite (sh_state _ _ H) in Hs0.
    apply promise_Some in Hp as Hp'. destruct Hp' as [_ Ho]. destruct (r_addr_at s A o d a H Ho) as (_ & Hd' & _).
    assert (d0 = d) as -> by congruence.
    destruct (build_start o s d a A I H Hp Hc) as (c2 & Hx). rewrite Hs0, Hi in Hx. destruct Hx as [He H1].
    exists 1, (set_ch c2 s). split; [done|]. intros [|n] Hle; [lia|]. cbn [build]. rewrite Hp.
    destruct d as [aty sty ini body]. cbn [bd_sty bd_init bd_body bd_aty] in *. subst ini.
    pose proof (cached_None s o _ a I Hp Hc) as Ha.
    unfold contains_artifact. rewrite Ha. rewrite bool_decide_eq_false_2 by (by intros [? ?]). rewrite andb_false_r, He. done.
  - intros B o A d0 v b A' Hd Hv Hr IH s d a I H Hst Hp Hc.
    apply promise_Some in Hp as Hp'. destruct Hp' as [_ Ho]. destruct (r_addr_at s A o d a H Ho) as (_ & Hd' & _).
    assert (d0 = d) as -> by congruence.
    destruct (build_go o s d a A v I H Hp Hc Hv) as (s1 & I1 & H1 & Hst1 & Ho1 & Hgo). rewrite Hst in Hst1.
    destruct (IH s1 B d a I1 H1 Hst1 eq_refl Ho1) as (n0 & s2 & H2 & Hn). cbn in Hn.
    destruct (exec_keeps n0 o d a B _ s1 _ s2 I1 Hst1 Ho1 (Hn n0 (le_n _))) as (I2 & Hst2 & Ho2).
    destruct (my_state_at s2 o B d a I2 Hst2 Ho2) as (_ & _ & _ & Hk2 & _).
    eexists (S n0), _. split; [|intros [|n] Hle; [lia|]; rewrite Hgo, Hn by lia; done].
    apply shows_stack, shows_log. exact (shows_store s2 _ o d a (bd_aty d) b I2 H2 Ho2 Hk2).
  - intros B o A d0 v e A' Hd Hv Hr IH s d a I H Hst Hp Hc.
    apply promise_Some in Hp as Hp'. destruct Hp' as [_ Ho]. destruct (r_addr_at s A o d a H Ho) as (_ & Hd' & _).
    assert (d0 = d) as -> by congruence.
    destruct (build_go o s d a A v I H Hp Hc Hv) as (s1 & I1 & H1 & Hst1 & Ho1 & Hgo). rewrite Hst in Hst1.
    destruct (IH s1 B d a I1 H1 Hst1 eq_refl Ho1) as (n0 & s2 & H2 & Hn). cbn in Hn.
    eexists (S n0), _. split; [|intros [|n] Hle; [lia|]; rewrite Hgo, Hn by lia; done].
    by apply shows_stack, shows_log.
  - intros B o A d0 v A' Hd Hv Hr IH s d a I H Hst Hp Hc.
    apply promise_Some in Hp as Hp'. destruct Hp' as [_ Ho]. destruct (r_addr_at s A o d a H Ho) as (_ & Hd' & _).
    assert (d0 = d) as -> by congruence.
    destruct (build_go o s d a A v I H Hp Hc Hv) as (s1 & I1 & H1 & Hst1 & Ho1 & Hgo). rewrite Hst in Hst1.
    destruct (IH s1 B d a I1 H1 Hst1 eq_refl Ho1) as (n0 & s2 & H2 & Hn). cbn in Hn.
    eexists (S n0), _. split; [|intros [|n] Hle; [lia|]; rewrite Hgo, Hn by lia; done]. done.
  - intros B u r A s S du ua I H Hst HB Hu. exists 0, s. split; [done|]. by intros.
  - intros B u A s S du ua I H Hst HB Hu. exists 0, s. split; [done|]. by intros.
  - intros B u h w k A r A1 x A2 Hg IH1 Hr IH2 s S du ua I H Hst HB Hu.
    assert (w ∈ r_live A) as Hl by (inversion Hg; done). rewrite HB in Hst.
    destruct (get_live s A w I H Hl) as (d & wa & Hp).
    destruct (shows_track E s A u S du ua w d wa I H Hst Hu Hp) as (c & Ht & P1 & H1).
    pose proof (prims_Inv E _ _ P1 I) as I1. set (s1 := log (EResolve u w) (set_ch c s)) in *.
    destruct (IH1 s1 I1 H1) as (n1 & s2 & H2 & Hn1); [by rewrite HB|].
    assert (∀ n, n1 ≤ n → resolve_with E (build E n) u ua h w s = Done r (log (EGot u w r) s2)) as Hres.
    { intros n Hn. unfold resolve_with. rewrite Hp, Ht. fold s1. specialize (Hn1 n Hn). unfold get in Hn1. by rewrite Hn1. }
    destruct (resolve_with_prims E (build E n1) u du ua h w s S (build_bld_ok E n1) (i_wf _ I) Hst Hu) as [R1 R2].
    assert (prims s (log (EGot u w r) s2)) as P2 by (apply R1; left; eauto).
    destruct (IH2 (log (EGot u w r) s2) S du ua) as (n2 & s3 & H3 & Hn2).
    { exact (prims_Inv E _ _ P2 I). }
    { by apply shows_log. }
    { rewrite (R2 _ _ (Hres n1 (le_n _))). congruence. }
    { done. }
    { exact (prims_objs E s _ u _ P2 (i_wf _ I) Hu). }
    exists (n1 `max` n2), s3. split; [done|]. intros n Hn. cbn [exec]. rewrite Hres by lia. by apply Hn2; lia.
  - intros B u h w k A A1 Hg IH1 s S du ua I H Hst HB Hu.
    assert (w ∈ r_live A) as Hl by (inversion Hg; done). rewrite HB in Hst.
    destruct (get_live s A w I H Hl) as (d & wa & Hp).
    destruct (shows_track E s A u S du ua w d wa I H Hst Hu Hp) as (c & Ht & P1 & H1).
    pose proof (prims_Inv E _ _ P1 I) as I1. set (s1 := log (EResolve u w) (set_ch c s)) in *.
    destruct (IH1 s1 I1 H1) as (n1 & s2 & H2 & Hn1); [by rewrite HB|].
    exists n1, s2. split; [done|]. intros n Hn. cbn [exec]. unfold resolve_with. rewrite Hp, Ht. fold s1.
    specialize (Hn1 n Hn). unfold get in Hn1. by rewrite Hn1.
  - intros B u k A v x A' Hv Hr IH s S du ua I H Hst HB Hu. rewrite HB in Hst.
    destruct (my_state_at s u S du ua I Hst Hu) as (v' & Hm & Hv' & _).
    assert (v' = v) as -> by (rewrite (sh_state _ _ H) in Hv; congruence).
    destruct (IH s S du ua I H) as (n1 & s2 & H2 & Hn); [congruence|done|done|].
    exists n1, s2. split; [done|]. intros n Hle. cbn [exec]. rewrite Hm. by apply Hn.
  - intros B u v p A x A' Hr IH s S du ua I H Hst HB Hu. rewrite HB in Hst.
    destruct (my_state_at s u S du ua I Hst Hu) as (v' & Hm & Hv' & Hk & Hd).
    set (s1 := set_ch (set_dyn_states <[ua := Dst (bd_sty du) v]> (ch s)) s). assert (prim s s1) as P1 by (eapply pm_set; eauto).
    destruct (IH s1 S du ua (prim_Inv E _ _ P1 I)) as (n1 & s2 & H2 & Hn); [by eapply shows_put|by rewrite HB|done|done|].
    exists n1, s2. split; [done|]. intros n Hle. cbn [exec]. rewrite Hm. by apply Hn.
  - intros B u k A x A' Hr IH s S du ua I H Hst HB Hu.
    assert (prim s (tock s)) as P1 by constructor.
    destruct (IH (tock s) S du ua (prim_Inv E _ _ P1 I)) as (n1 & s2 & H2 & Hn); [by apply shows_tock|done|done|done|].
    exists n1, s2. split; [done|]. intros n Hle. cbn [exec]. rewrite <- (sh_tick _ _ H). by apply Hn.
  - intros B u v k A x A' Hr IH s S du ua I H Hst HB Hu.
    assert (prim s (set_nbin (N.succ (nbin s)) s)) as P1 by constructor. pose proof (shows_newbin s A H) as H1.
    destruct (IH _ S du ua (prim_Inv E _ _ P1 I) H1) as (n1 & s2 & H2 & Hn); [done|done|done|].
    exists n1, s2. split; [done|]. intros n Hle. cbn [exec]. rewrite <- (sh_nbin _ _ H) at 1. by apply Hn.
  - intros B u d k A x A' Hfr Hr IH s S du ua I H Hst HB Hu.
    pose proof (alloc_iff E s A d I H) as Ha. destruct (alloc E d s) as [[o s1]|] eqn:Hal; [|done].
    destruct Ha as (_ & -> & H1). assert (prim s s1) as P1 by (eapply pm_alloc; exact Hal).
    assert (stack s1 = stack s) as Hst1 by (by apply alloc_Some in Hal as (_ & -> & _)).
    destruct (IH s1 S du ua (prim_Inv E _ _ P1 I) H1) as (n1 & s2 & H2 & Hn); [congruence|done|exact (prim_objs E s s1 u _ P1 (i_wf _ I) Hu)|].
    exists n1, s2. split; [done|]. intros n Hle. cbn [exec]. rewrite Hal. by apply Hn.
  - intros B u w p A x A' Hl Hns Hr IH s S du ua I H Hst HB Hu.
    pose proof (drop_iff s A w H) as Ha. destruct (drop_obj w s) as [s1|] eqn:Hal; [|rewrite Hst in Ha; tauto].
    destruct Ha as (_ & _ & H1). assert (prim s s1) as P1 by (eapply pm_drop; exact Hal).
    assert (stack s1 = stack s) as Hst1 by (by apply drop_Some in Hal as (_ & _ & ->)).
    destruct (IH s1 S du ua (prim_Inv E _ _ P1 I) H1) as (n1 & s2 & H2 & Hn); [congruence|done|exact (prim_objs E s s1 u _ P1 (i_wf _ I) Hu)|].
    exists n1, s2. split; [done|]. intros n Hle. cbn [exec]. rewrite Hal. by apply Hn.
Qed.
End RefBuild.
