(** The threaded model refines the threaded reference cache. *)
From Verif Require Export ThreadSpec RefCalls.
From stdpp Require Import relations.

Section ThreadFacts.
Context (E : env) (T : nat → list act).
Notation prim := (prim E).
Notation prims := (rtc prim).
Notation r_act := (r_act (e_ask E)).
Notation r_others := (r_others (e_ask E)).
Notation tget := (tget (e_ask E) (e_kind E)).
Notation tbuild := (tbuild (e_ask E) (e_kind E)).
Notation trun := (trun (e_ask E) (e_kind E)).
Notation tcall := (tcall (e_ask E) (e_kind E)).

(** ** The others *)
Record turned (B : list obj) (s s' : st) : Prop := {
  tu_prims : prims s s';
  tu_stack : stack s' = stack s;
  tu_ch : ch s' = ch s;
  tu_trace : trace s' = trace s;
  tu_reent : reent s' = reent s;
  tu_alive : ∀ o, o ∈ alive s → o ∈ B → o ∈ alive s';
  tu_dead : ∀ o, is_Some (objs s !! o) → o ∉ alive s → o ∉ alive s';
  tu_objs : ∀ o x, objs s !! o = Some x → objs s' !! o = Some x;
}.
Lemma turned_refl B s : turned B s s.
Proof. by split. Qed.
Lemma turned_trans B s1 s2 s3 : turned B s1 s2 → turned B s2 s3 → turned B s1 s3.
Proof.
  intros H1 H2. split.
  - eapply rtc_transitive; [apply H1|apply H2].
  - rewrite (tu_stack _ _ _ H2). apply H1.
  - rewrite (tu_ch _ _ _ H2). apply H1.
  - rewrite (tu_trace _ _ _ H2). apply H1.
  - rewrite (tu_reent _ _ _ H2). apply H1.
  - intros o Ho HB. apply (tu_alive _ _ _ H2); [|done]. by apply (tu_alive _ _ _ H1).
  - intros o [x Hx] Hn. apply (tu_dead _ _ _ H2); [exists x; by apply (tu_objs _ _ _ H1)|]. apply (tu_dead _ _ _ H1); [by exists x|done].
  - intros o x Hx. by apply (tu_objs _ _ _ H2), (tu_objs _ _ _ H1).
Qed.

Lemma perform_ok B x s s' A :
  Inv s → shows s A → perform E B x s = Some s' → turned B s s' ∧ ∃ A', r_act (B ++ stack s) A A' ∧ shows s' A'.
Proof.
  intros I H. destruct x as [d|w| | ]; cbn [perform].
  - pose proof (alloc_iff E s A d I H) as Ha. destruct (alloc E d s) as [[o s1]|] eqn:Hal; [|done]. intros [= <-].
    destruct Ha as (Hf & _ & H1). split; [|exists (r_alloc d (e_ask E (r_tick A)) A); split; [by constructor|done]].
    assert (prim s s1) as P by (by eapply pm_alloc). apply alloc_Some in Hal as (-> & -> & _). split; try done.
    + by apply rtc_once.
    + intros o Ho _. cbn. set_solver.
    + intros o [x Hx] Hn. cbn. apply not_elem_of_union. split; [|done]. apply not_elem_of_singleton. intros ->.
      apply (i_num _ I) in Hx. lia.
    + intros o x Hx. cbn. rewrite lookup_insert_ne; [done|]. intros <-. apply (i_num _ I) in Hx. lia.
  - case_bool_decide as HB; [done|]. pose proof (drop_iff s A w H) as Ha. destruct (drop_obj w s) as [s1|] eqn:Hd; [|done].
    intros [= <-]. destruct Ha as (Hl & Hs & H1). split.
    + assert (prim s s1) as P by (by eapply pm_drop). apply drop_Some in Hd as (_ & _ & ->). split; try done.
      * eapply rtc_l; [exact P|apply rtc_once; constructor].
      * intros o Ho HoB. cbn. apply elem_of_difference. split; [done|]. apply not_elem_of_singleton. by intros ->.
      * intros o _ Hn. cbn. set_solver.
    + exists (r_tock (r_drop w A)). split; [|by apply shows_tock]. constructor; [done|]. rewrite elem_of_app. tauto.
  - intros [= <-]. split; [|exists (r_tock (r_newbin A)); split; [constructor|by apply shows_tock, shows_newbin]].
    split; try done. eapply rtc_l; [apply pm_newbin|apply rtc_once, pm_tick].
  - intros [= <-]. split; [|exists (r_tock A); split; [constructor|by apply shows_tock]].
    split; try done. apply rtc_once, pm_tick.
Qed.

Lemma performs_ok B l s s' A :
  Inv s → shows s A → performs E B l s = Some s' → turned B s s' ∧ ∃ A', r_others (B ++ stack s) A A' ∧ shows s' A'.
Proof.
  revert s A. induction l as [|x l IH]; intros s A I H; cbn [performs].
  - intros [= <-]. split; [apply turned_refl|]. exists A. split; [apply rtc_refl|done].
  - destruct (perform E B x s) as [s1|] eqn:Hx; [|done]. intros Hl.
    destruct (perform_ok B x s s1 A I H Hx) as (T1 & A1 & R1 & H1).
    destruct (IH s1 A1 (prims_Inv E _ _ (tu_prims _ _ _ T1) I) H1 Hl) as (T2 & A2 & R2 & H2).
    split; [by eapply turned_trans|]. exists A2. split; [|done]. rewrite (tu_stack _ _ _ T1) in R2. eapply rtc_l; done.
Qed.

Lemma meanwhile_ok {R} B s (k : st → outcome R) A x :
  Inv s → shows s A → meanwhile E T B s k = x → x ≠ Illegal →
  ∃ s1 A1, k s1 = x ∧ turned B s s1 ∧ Inv s1 ∧ r_others (B ++ stack s) A A1 ∧ shows s1 A1.
Proof.
  intros I H. unfold meanwhile. destruct (performs E B _ s) as [s1|] eqn:Hp; [|congruence]. intros Hk _.
  destruct (performs_ok B _ s s1 A I H Hp) as (T1 & A1 & R1 & H1). exists s1, A1. split_and!; try done.
  exact (prims_Inv E _ _ (tu_prims _ _ _ T1) I).
Qed.

Lemma turned_promise B s s' o d a : turned B s s' → promise o s = Some (d, a) → o ∈ B → promise o s' = Some (d, a).
Proof. intros H Hp HB. apply promise_Some in Hp as [Ha Ho]. apply promise_Some. split; [by apply (tu_alive _ _ _ H)|by apply (tu_objs _ _ _ H)]. Qed.

(** What they do does not change what the cache holds. *)
Lemma turned_known B s s' o d a : Inv s → turned B s s' → known (ch s) !! a = Some o → objs s' !! o = Some (d, a) ↔ objs s !! o = Some (d, a).
Proof.
  intros I H Hk. split; [|apply (tu_objs _ _ _ H)]. destruct (ci_known_obj _ _ (i_c _ I) _ _ Hk) as [d' Ho].
  pose proof (tu_objs _ _ _ H _ _ Ho). congruence.
Qed.
Lemma turned_knows B s s' o : Inv s → turned B s s' → knows s' o ↔ knows s o.
Proof.
  intros I H. unfold knows, at_addr. rewrite (tu_ch _ _ _ H). split; intros (d & a & Ho & Hk); exists d, a; (split; [|done]); by apply (turned_known B s s').
Qed.
Lemma turned_depends B s s' u w : Inv s → turned B s s' → depends s' u w ↔ depends s u w.
Proof.
  intros I H. unfold depends, at_addr. rewrite (tu_ch _ _ _ H). split; intros (du & ua & dw & wa & X & H1 & H2 & H3 & H4 & H5); exists du, ua, dw, wa, X;
    (split_and!; try done; [by apply (turned_known B s s' u)|by apply (turned_known B s s' w)|by destruct H5..]).
Qed.

(** ** Building *)
Definition grows (s s' : st) : Prop := Inv s' ∧ ∀ o x, objs s !! o = Some x → objs s' !! o = Some x.
Lemma grows_trans s1 s2 s3 : grows s1 s2 → grows s2 s3 → grows s1 s3.
Proof. intros [_ H1] [I2 H2]. split; [done|]. eauto. Qed.
Lemma prims_grows s s' : Inv s → prims s s' → grows s s'.
Proof. intros I P. split; [exact (prims_Inv E _ _ P I)|]. intros o x. apply (prims_objs E s s' o x P), (i_wf _ I). Qed.

Definition sound_bt (bld : obj → st → outcome bres) : Prop :=
  ∀ o s d a A, Inv s → shows s A → promise o s = Some (d, a) → cached s o = None →
  (∀ r s', bld o s = Done r s' → grows s s' ∧ stack s' = stack s ∧ promise o s' = Some (d, a) ∧ (∀ e, r = BOk e → ar_ty e = bd_aty d) ∧
     ∃ A', tbuild (stack s) o A (Some (built_res r)) A' ∧ shows s' A') ∧
  (∀ k s', bld o s = Panic k s' → k = PkUser ∧ Inv s' ∧ ∃ A', tbuild (stack s) o A None A' ∧ shows s' A').

Lemma get_t_sound bld h o s A :
  sound_bt bld → Inv s → shows s A →
  (∀ r s', get_t E T bld h o s = Done r s' → grows s s' ∧ stack s' = stack s ∧ ∃ A', tget (stack s) h o A (Some r) A' ∧ shows s' A') ∧
  (∀ k s', get_t E T bld h o s = Panic k s' → k = PkUser ∧ Inv s' ∧ ∃ A', tget (stack s) h o A None A' ∧ shows s' A').
Proof.
  intros Hb I0 H0. unfold get_t. destruct (promise o s) as [[d a]|] eqn:Hp0; [|done].
  destruct (how_legal E h) eqn:Hh; [|done]. apply legal_iff in Hh.
  assert (o ∈ r_live A) as Hl0 by (rewrite (sh_live _ _ H0); by apply promise_Some in Hp0 as [? _]).
  set (k := λ s : st, _).
  assert (∀ s1 A1, turned [o] s s1 → Inv s1 → r_others ([o] ++ stack s) A A1 → shows s1 A1 →
    (∀ r s', k s1 = Done r s' → grows s s' ∧ stack s' = stack s ∧ ∃ A', tget (stack s) h o A (Some r) A' ∧ shows s' A') ∧
    (∀ pk s', k s1 = Panic pk s' → pk = PkUser ∧ Inv s' ∧ ∃ A', tget (stack s) h o A None A' ∧ shows s' A')) as Hk.
  { intros s1 A1 T1 I R H. pose proof (turned_promise _ _ _ _ _ _ T1 Hp0 (elem_of_list_here _ _)) as Hp.
    unfold k. rewrite (lookup_art_ok _ o s1 d a I Hp).
    assert (o ∈ r_live A1) as Hl by (rewrite (sh_live _ _ H); by apply promise_Some in Hp as [? _]).
    pose proof (live_cached s1 o d a I Hp) as Hc. pose proof (sh_art _ _ H o) as Hra.
    pose proof (prims_grows _ _ I0 (tu_prims _ _ _ T1)) as P1. rewrite <- (tu_stack _ _ _ T1) in *.
    assert (∀ x A', tget (stack s1) h o A1 x A' → tget (stack s1) h o A x A') as Hw by (intros x A' Hx; by eapply tget_others).
    destruct (artifacts (ch s1) !! a) as [e|] eqn:He; cbn in Hc.
    - split; [|done]. intros r s' [= <- <-]. do 2 (split; [done|]). exists A1. split; [|done]. apply Hw, tget_hit; [done..|]. congruence.
    - destruct (Hb o s1 d a A1 I H Hp Hc) as [B1 B2].
      destruct (bld o s1) as [[e|e] s2|pk s2| |] eqn:Hbo; try done.
      + destruct (B1 _ _ eq_refl) as (P2 & Hst & _ & Hty & A' & Hr & Hs). rewrite (Hty e eq_refl), N.eqb_refl. split; [|done].
        intros r s' [= <- <-]. split; [by eapply grows_trans|]. split; [done|]. exists A'. split; [|done]. apply Hw. eapply tget_built; [done..|congruence|exact Hr].
      + destruct (B1 _ _ eq_refl) as (P2 & Hst & _ & _ & A' & Hr & Hs). split; [|done].
        intros r s' [= <- <-]. split; [by eapply grows_trans|]. split; [done|]. exists A'. split; [|done]. apply Hw. eapply tget_failed; [done..|congruence|exact Hr].
      + destruct (B2 _ _ eq_refl) as (-> & P2 & A' & Hr & Hs). split; [done|].
        intros pk s' [= <- <-]. split; [done|]. split; [done|]. exists A'. split; [|done]. apply Hw. eapply tget_panicked; [done..|congruence|exact Hr]. }
  split; intros r s' Hx; (destruct (meanwhile_ok _ _ _ _ _ I0 H0 Hx) as (s1 & A1 & Hk1 & T1 & I1 & R1 & H1); [done|]);
    destruct (Hk s1 A1 T1 I1 R1 H1) as [K1 K2]; [by apply K1|by apply K2].
Qed.

Lemma Inv_log e s : Inv s → Inv (log e s).
Proof. intros I. split; apply I. Qed.

Lemma resolve_t_sound bld u du ua S h w s A :
  sound_bt bld → Inv s → shows s A → stack s = u :: S → objs s !! u = Some (du, ua) →
  let A0 := r_note (EResolve u w) (r_use u w (r_meet w A)) in
  (∀ r s', resolve_t E T bld u ua h w s = Done r s' → grows s s' ∧ stack s' = u :: S ∧
     ∃ A', tget (u :: S) h w A0 (Some r) A' ∧ shows s' (r_note (EGot u w r) A')) ∧
  (∀ k s', resolve_t E T bld u ua h w s = Panic k s' → k = PkUser ∧ Inv s' ∧ ∃ A', tget (u :: S) h w A0 None A' ∧ shows s' A').
Proof.
  intros Hb I H Hst Hu A0. unfold resolve_t. destruct (promise w s) as [[d wa]|] eqn:Hp; [|done].
  destruct (shows_track E s A u S du ua w d wa I H Hst Hu Hp) as (c & -> & P1 & H1).
  pose proof (prims_grows _ _ I P1) as G0. pose proof (proj1 G0) as I1. set (s1 := log (EResolve u w) (set_ch c s)) in *.
  destruct (get_t_sound bld h w s1 A0 Hb I1 H1) as [G1 G2]. assert (stack s1 = u :: S) as Hst1 by exact Hst. rewrite Hst1 in G1, G2.
  destruct (get_t E T bld h w s1) as [r s2|k s2| |] eqn:Hg; try done.
  destruct (G1 _ _ eq_refl) as (G3 & Hst2 & A1 & Hr & Hs). split; [|done]. intros r' s' [= <- <-].
  split; [eapply grows_trans; [exact G0|]; eapply grows_trans; [exact G3|]; split; [by apply Inv_log, G3|done]|].
  split; [done|]. exists A1. split; [done|]. by apply shows_log.
Qed.

Lemma run_t_sound bld u du ua S :
  sound_bt bld → ∀ p s A, Inv s → shows s A → stack s = u :: S → objs s !! u = Some (du, ua) →
  (∀ r s', exec_t E T bld u ua (bd_sty du) p s = Done r s' → grows s s' ∧ stack s' = u :: S ∧ ∃ A', trun (u :: S) u p A (Some r) A' ∧ shows s' A') ∧
  (∀ k s', exec_t E T bld u ua (bd_sty du) p s = Panic k s' → k = PkUser ∧ Inv s' ∧ ∃ A', trun (u :: S) u p A None A' ∧ shows s' A').
Proof.
  intros Hb p.
  (* One thing done, after the turn of the others. *)
  assert (∀ p s A (k : st → outcome result), Inv s → shows s A → stack s = u :: S → objs s !! u = Some (du, ua) →
    (∀ s A, Inv s → shows s A → stack s = u :: S → objs s !! u = Some (du, ua) →
      (∀ r s', k s = Done r s' → grows s s' ∧ stack s' = u :: S ∧ ∃ A', trun (u :: S) u p A (Some r) A' ∧ shows s' A') ∧
      (∀ pk s', k s = Panic pk s' → pk = PkUser ∧ Inv s' ∧ ∃ A', trun (u :: S) u p A None A' ∧ shows s' A')) →
    (∀ r s', meanwhile E T [] s k = Done r s' → grows s s' ∧ stack s' = u :: S ∧ ∃ A', trun (u :: S) u p A (Some r) A' ∧ shows s' A') ∧
    (∀ pk s', meanwhile E T [] s k = Panic pk s' → pk = PkUser ∧ Inv s' ∧ ∃ A', trun (u :: S) u p A None A' ∧ shows s' A')) as Hturn.
  { clear p. intros p s A k I H Hst Hu Hk.
    split; intros r s' Hx; (destruct (meanwhile_ok _ _ _ _ _ I H Hx) as (s1 & A1 & Hk1 & T1 & I1 & R1 & H1); [done|]);
      (destruct (Hk s1 A1 I1 H1) as [K1 K2]; [by rewrite (tu_stack _ _ _ T1)|by apply (tu_objs _ _ _ T1)|]);
      rewrite Hst in R1; cbn in R1; pose proof (prims_grows _ _ I (tu_prims _ _ _ T1)) as G1.
    - destruct (K1 _ _ Hk1) as (G & Hs & A' & Hr & Hsh). split; [by eapply grows_trans|]. split; [done|]. exists A'. split; [|done]. by eapply trun_others.
    - destruct (K2 _ _ Hk1) as (-> & G & A' & Hr & Hsh). do 2 (split; [done|]). exists A'. split; [|done]. by eapply trun_others. }
  induction p as [r| |h w k IH|k IH|v p IH|k IH|v k IH|d k IH|w p IH]; intros s0 A0 I0 H0 Hst0 Hu0; cbn [exec_t];
    apply Hturn; try done; clear s0 A0 I0 H0 Hst0 Hu0 Hturn; intros s A I H Hst Hu.
  - split; [|done]. intros r' s' [= <- <-]. do 2 (split; [done|]). exists A. split; [constructor|done].
  - split; [done|]. intros k' s' [= <- <-]. do 2 (split; [done|]). exists A. split; [constructor|done].
  - destruct (resolve_t_sound bld u du ua S h w s A Hb I H Hst Hu) as [S1 S2].
    destruct (resolve_t E T bld u ua h w s) as [r s1|pk s1| |] eqn:Hr; try done.
    + destruct (S1 _ _ eq_refl) as (G1 & Hst1 & A1 & R1 & H1).
      destruct (IH r s1 _ (proj1 G1) H1 Hst1 (proj2 G1 _ _ Hu)) as [X1 X2].
      split.
      * intros r' s' Hx. destruct (X1 _ _ Hx) as (G2 & Hst2 & A2 & Y & Z). split; [exact (grows_trans _ _ _ G1 G2)|]. split; [done|]. exists A2. split; [|done]. by eapply trun_resolve.
      * intros k' s' Hx. destruct (X2 _ _ Hx) as (-> & G2 & A2 & Y & Z). do 2 (split; [done|]). exists A2. split; [|done]. by eapply trun_resolve.
    + split; [done|]. intros k' s' [= <- <-]. destruct (S2 _ _ eq_refl) as (-> & I1 & A1 & G1 & H1). do 2 (split; [done|]).
      exists A1. split; [|done]. by eapply trun_resolve_panic.
  - destruct (my_state_at E s u S du ua I Hst Hu) as (v & -> & Hv & _).
    assert (r_state A !! u = Some v) as Hv' by (by rewrite (sh_state _ _ H)).
    destruct (IH v s A I H Hst Hu) as [X1 X2]. split.
    + intros r' s' Hx. destruct (X1 _ _ Hx) as (G2 & Hst2 & A2 & Y & Z). do 2 (split; [done|]). exists A2. split; [|done]. by eapply trun_state.
    + intros k' s' Hx. destruct (X2 _ _ Hx) as (-> & G2 & A2 & Y & Z). do 2 (split; [done|]). exists A2. split; [|done]. by eapply trun_state.
  - destruct (my_state_at E s u S du ua I Hst Hu) as (v' & -> & Hv & Hk & Hd).
    set (s1 := set_ch _ s). assert (prim s s1) as P1 by (eapply pm_set; eauto). pose proof (prims_grows _ _ I (rtc_once _ _ P1)) as G1.
    destruct (IH s1 (r_put u v A) (proj1 G1)) as [X1 X2]; [by eapply shows_put|done|done|]. split.
    + intros r' s' Hx. destruct (X1 _ _ Hx) as (G2 & Hst2 & A2 & Y & Z). split; [exact (grows_trans _ _ _ G1 G2)|]. split; [done|]. exists A2. split; [|done]. by eapply trun_set.
    + intros k' s' Hx. destruct (X2 _ _ Hx) as (-> & G2 & A2 & Y & Z). do 2 (split; [done|]). exists A2. split; [|done]. by eapply trun_set.
  - assert (prim s (tock s)) as P1 by constructor. rewrite <- (sh_tick _ _ H). pose proof (prims_grows _ _ I (rtc_once _ _ P1)) as G1.
    destruct (IH (e_ask E (r_tick A)) (tock s) (r_tock A) (proj1 G1)) as [X1 X2]; [by apply shows_tock|done|done|]. split.
    + intros r' s' Hx. destruct (X1 _ _ Hx) as (G2 & Hst2 & A2 & Y & Z). split; [exact (grows_trans _ _ _ G1 G2)|]. split; [done|]. exists A2. split; [|done]. by eapply trun_ask.
    + intros k' s' Hx. destruct (X2 _ _ Hx) as (-> & G2 & A2 & Y & Z). do 2 (split; [done|]). exists A2. split; [|done]. by eapply trun_ask.
  - assert (prim s (set_nbin (N.succ (nbin s)) s)) as P1 by constructor. pose proof (shows_newbin s A H) as H1. pose proof (prims_grows _ _ I (rtc_once _ _ P1)) as G1.
    destruct (IH (Bin (nbin s) v) _ _ (proj1 G1) H1) as [X1 X2]; [done|done|].
    split.
    + intros r' s' Hx. destruct (X1 _ _ Hx) as (G2 & Hst2 & A2 & Y & Z). split; [exact (grows_trans _ _ _ G1 G2)|]. split; [done|]. exists A2. split; [|done]. eapply trun_newbin. by rewrite (sh_nbin _ _ H).
    + intros k' s' Hx. destruct (X2 _ _ Hx) as (-> & G2 & A2 & Y & Z). do 2 (split; [done|]). exists A2. split; [|done]. eapply trun_newbin. by rewrite (sh_nbin _ _ H).
  - pose proof (alloc_iff E s A d I H) as Ha. destruct (alloc E d s) as [[o s1]|] eqn:Hal; [|done].
    destruct Ha as (Hfr & -> & H1). assert (prim s s1) as P1 by (eapply pm_alloc; exact Hal).
    assert (stack s1 = stack s) as Hst1 by (by apply alloc_Some in Hal as (_ & -> & _)). pose proof (prims_grows _ _ I (rtc_once _ _ P1)) as G1.
    destruct (IH (r_nobj A) s1 _ (proj1 G1) H1) as [X1 X2]; [by rewrite Hst1|exact (proj2 G1 _ _ Hu)|]. split.
    + intros r' s' Hx. destruct (X1 _ _ Hx) as (G2 & Hst2 & A2 & Y & Z). split; [exact (grows_trans _ _ _ G1 G2)|]. split; [done|]. exists A2. split; [|done]. by eapply trun_new.
    + intros k' s' Hx. destruct (X2 _ _ Hx) as (-> & G2 & A2 & Y & Z). do 2 (split; [done|]). exists A2. split; [|done]. by eapply trun_new.
  - pose proof (drop_iff s A w H) as Ha. destruct (drop_obj w s) as [s1|] eqn:Hal; [|done].
    destruct Ha as (Hl & Hns & H1). assert (prim s s1) as P1 by (eapply pm_drop; exact Hal). rewrite Hst in Hns.
    assert (stack s1 = stack s) as Hst1 by (by apply drop_Some in Hal as (_ & _ & ->)). pose proof (prims_grows _ _ I (rtc_once _ _ P1)) as G1.
    destruct (IH s1 _ (proj1 G1) H1) as [X1 X2]; [by rewrite Hst1|exact (proj2 G1 _ _ Hu)|]. split.
    + intros r' s' Hx. destruct (X1 _ _ Hx) as (G2 & Hst2 & A2 & Y & Z). split; [exact (grows_trans _ _ _ G1 G2)|]. split; [done|]. exists A2. split; [|done]. by eapply trun_drop.
    + intros k' s' Hx. destruct (X2 _ _ Hx) as (-> & G2 & A2 & Y & Z). do 2 (split; [done|]). exists A2. split; [|done]. by eapply trun_drop.
Qed.

Lemma build_t_sound n : sound_bt (build_t E T n).
Proof.
  induction n as [|n IHn]; intros o s d a A I H Hp Hc; cbn [build_t]; [done|].
  rewrite Hp. destruct d as [aty sty ini body].
  pose proof (cached_None s o _ a I Hp Hc) as Ha.
  unfold contains_artifact. rewrite Ha. rewrite bool_decide_eq_false_2 by (by intros [? ?]). rewrite andb_false_r.
  destruct (build_start E o s _ a A I H Hp Hc) as (c2 & Hst). cbn [bd_sty bd_init] in Hst.
  apply promise_Some in Hp as Hp'. destruct Hp' as [Hal Ho].
  destruct (r_addr_at s A o _ a H Ho) as (_ & Hdef & _).
  pose proof (sh_state _ _ H o) as Hrs.
  assert (state_of s o = None ∧ ini = None ∨ ∃ v, (state_of s o = Some v ∨ state_of s o = None ∧ ini = Some v) ∧
      ensure_dyn_state a o sty ini (make_known a o (ch s)) = (c2, inr v) ∧
      let s1 := log (ECall o) (set_reent (reent s || bool_decide (o ∈ stack s)) (set_stack (o :: stack s) (set_ch c2 s))) in
      prims s s1 ∧ Inv s1 ∧ shows s1 (r_note (ECall o) (r_put o v (r_meet o A)))) as [[Hn Hi]|(v & Hv & -> & P1 & I1 & H1)].
  { destruct (state_of s o) as [v|], ini as [v'|]; [right; done..|left; done]. }
  - subst ini. rewrite Hn in Hst. destruct Hst as [He H1]. rewrite He. split; [done|]. intros k s' [= <- <-]. split; [done|].
    split; [|exists (r_meet o A); split; [by eapply tbuild_noinit; [exact Hdef|congruence|]|done]].
    assert (c2 = make_known a o (ch s)) as ->.
    { unfold ensure_dyn_state in He. rewrite make_known_idem in He. by destruct (dyn_states _ !! a) as [dv|]; [destruct (_ =? _)%N|]; injection He as <-. }
    eapply (prim_Inv E); [|exact I]. by eapply pm_know.
  - assert (r_state A !! o = Some v ∨ r_state A !! o = None ∧ bd_init (BDef aty sty ini body) = Some v) as Hv' by (by rewrite Hrs).
    pose proof (prims_grows _ _ I P1) as G1. cbn zeta. set (s1 := log _ _) in *.
    destruct (run_t_sound (build_t E T n) o (BDef aty sty ini body) a (stack s) IHn body s1 _ I1 H1 eq_refl Ho) as [X1 X2].
    cbn [bd_sty] in X1, X2.
    destruct (exec_t E T (build_t E T n) o a sty body s1) as [[b|e] s2|k s2| |] eqn:Hx; try done.
    + destruct (X1 _ _ eq_refl) as (G2 & Hst2 & A2 & Y & Z). destruct G2 as [I2 G2].
      assert (objs s2 !! o = Some (BDef aty sty ini body, a)) as Ho2 by (by apply G2).
      destruct (my_state_at E s2 o (stack s) _ a I2 Hst2 Ho2) as (_ & _ & _ & Hk2 & _).
      cbn [artifacts set_artifacts]. rewrite lookup_insert. split; [|done].
      intros r s' [= <- <-].
      assert (prim s2 (set_stack (stack s) (log (EBuilt o b) (set_ch (set_artifacts <[a:=Art aty b]> (ch s2)) s2)))) as P3.
      { exact (pm_ok E s2 o (BDef aty sty ini body) a (stack s) b Hst2 Ho2). }
      split; [eapply grows_trans; [exact G1|]; eapply grows_trans; [split; [exact I2|exact G2]|]; exact (prims_grows _ _ I2 (rtc_once _ _ P3))|].
      split; [done|]. split.
      { apply promise_Some. split; [|exact Ho2]. cbn. apply (i_stack _ I2). rewrite Hst2. left. }
      split; [intros e [= <-]; done|]. exists (r_note (EBuilt o b) (r_store o b A2)). split.
      * eapply tbuild_ok; [exact Hdef|exact Hv'|exact Y].
      * apply shows_stack, shows_log. exact (shows_store s2 A2 o _ a aty b I2 Z Ho2 Hk2).
    + destruct (X1 _ _ eq_refl) as (G2 & Hst2 & A2 & Y & Z). destruct G2 as [I2 G2]. split; [|done]. intros r s' [= <- <-].
      assert (objs s2 !! o = Some (BDef aty sty ini body, a)) as Ho2 by (by apply G2).
      assert (prim s2 (set_stack (stack s) (log (EFailed o e) s2))) as P3 by exact (pm_fail E s2 o (stack s) e Hst2).
      split; [eapply grows_trans; [exact G1|]; eapply grows_trans; [split; [exact I2|exact G2]|]; exact (prims_grows _ _ I2 (rtc_once _ _ P3))|].
      split; [done|]. split.
      { apply promise_Some. split; [|exact Ho2]. cbn. apply (i_stack _ I2). rewrite Hst2. left. }
      split; [done|]. eexists. split; [eapply tbuild_err; [exact Hdef|exact Hv'|exact Y]|]. by apply shows_stack, shows_log.
    + destruct (X2 _ _ eq_refl) as (-> & I2 & A2 & Y & Z). split; [done|]. intros k s' [= <- <-]. do 2 (split; [done|]).
      exists A2. split; [|done]. eapply tbuild_panic; [exact Hdef|exact Hv'|exact Y].
Qed.

(** ** [garbage_collection] *)

(** Other threads do not see the cache, except that it pins addresses. *)
Lemma perform_ch B x c c' s s' :
  known c' ⊆ known c → perform E B x (set_ch c s) = Some s' → perform E B x (set_ch c' s) = Some (set_ch c' s').
Proof.
  intros Hk. destruct x as [d|w| | ]; cbn [perform].
  - unfold alloc. cbn. destruct (_ || is_known c _) eqn:Hu; [done|]. intros [= <-].
    apply orb_false_iff in Hu as [-> Hn]. unfold is_known in *. apply bool_decide_eq_false in Hn.
    rewrite (bool_decide_eq_false_2 (is_Some (known c' !! _))); [done|]. intros [z Hz]. apply Hn. exists z. by eapply lookup_weaken.
  - case_bool_decide; [done|]. unfold drop_obj. cbn. destruct (_ && _); [|done]. by intros [= <-].
  - by intros [= <-].
  - by intros [= <-].
Qed.
Lemma performs_ch B l c c' s s' :
  known c' ⊆ known c → performs E B l (set_ch c s) = Some s' → performs E B l (set_ch c' s) = Some (set_ch c' s').
Proof.
  intros Hk. revert s. induction l as [|x l IH]; intros s; cbn [performs]; [by intros [= <-]|].
  destruct (perform E B x (set_ch c s)) as [s1|] eqn:Hx; [|done]. rewrite (perform_ch _ _ _ _ _ _ Hk Hx).
  assert (s1 = set_ch c s1) as Hs1.
  { destruct x as [d|w| | ]; cbn [perform] in Hx.
    - unfold alloc in Hx. destruct (_ || _); [done|]. by injection Hx as <-.
    - destruct (bool_decide _); [done|]. unfold drop_obj in Hx. destruct (_ && _); [|done]. by injection Hx as <-.
    - by injection Hx as <-.
    - by injection Hx as <-. }
  rewrite Hs1 at 1. apply IH.
Qed.
Lemma performs_app B l1 l2 s s1 : performs E B l1 s = Some s1 → performs E B (l1 ++ l2) s = performs E B l2 s1.
Proof.
  revert s. induction l1 as [|x l1 IH]; intros s; cbn [performs app]; [by intros [= <-]|].
  destruct (perform E B x s) as [s2|]; [|done]. apply IH.
Qed.

Lemma gc_scan_ok ls s A :
  Inv s → stack s = [] → shows s A → NoDup ls →
  (∀ l s1, gc_scan E T ls s = Done l s1 → turned [] s s1 ∧ (∃ A1, r_others [] A A1 ∧ shows s1 A1) ∧
     (∀ a, a ∈ ls → is_Some (known (ch s) !! a)) ∧
     (∀ a o, a ∈ ls → known (ch s) !! a = Some o → (a ∈ l → o ∉ alive s1) ∧ (o ∉ alive s → a ∈ l)) ∧
     (∀ a, a ∈ l → a ∈ ls) ∧
     ∀ al, (∀ a o, a ∈ ls → known (ch s) !! a = Some o → (o ∈ al ↔ a ∉ l)) → l = filter (λ a, unreachable al (ch s) a = true) ls) ∧
  (∀ k s1, gc_scan E T ls s = Panic k s1 → k = PkGcIndex ∧ turned [] s s1 ∧ (∃ A1, r_others [] A A1 ∧ shows s1 A1) ∧
     ∃ a, a ∈ ls ∧ known (ch s) !! a = None).
Proof.
  revert s A. induction ls as [|a ls IH]; intros s A I Hst H Hnd; cbn [gc_scan].
  { split; [|done]. intros l s1 [= <- <-]. split_and!; [apply turned_refl|exists A; split; [apply rtc_refl|done]|set_solver..|done]. }
  apply NoDup_cons in Hnd as [Ha Hnd]. set (k := λ s : st, _).
  assert (∀ s1 A1, turned [] s s1 → Inv s1 → r_others [] A A1 → shows s1 A1 →
    (∀ l s2, k s1 = Done l s2 → turned [] s s2 ∧ (∃ A2, r_others [] A A2 ∧ shows s2 A2) ∧
     (∀ b, b ∈ a :: ls → is_Some (known (ch s) !! b)) ∧
     (∀ b o, b ∈ a :: ls → known (ch s) !! b = Some o → (b ∈ l → o ∉ alive s2) ∧ (o ∉ alive s → b ∈ l)) ∧
     (∀ b, b ∈ l → b ∈ a :: ls) ∧
     ∀ al, (∀ b o, b ∈ a :: ls → known (ch s) !! b = Some o → (o ∈ al ↔ b ∉ l)) → l = filter (λ b, unreachable al (ch s) b = true) (a :: ls)) ∧
    (∀ pk s2, k s1 = Panic pk s2 → pk = PkGcIndex ∧ turned [] s s2 ∧ (∃ A2, r_others [] A A2 ∧ shows s2 A2) ∧
     ∃ b, b ∈ a :: ls ∧ known (ch s) !! b = None)) as Hk.
  { intros s1 A1 T1 I1 R1 H1. assert (stack s1 = []) as Hst1 by (by rewrite (tu_stack _ _ _ T1)).
    unfold k. pose proof (tu_ch _ _ _ T1) as Hch. rewrite Hch. destruct (known (ch s) !! a) as [o|] eqn:Hka.
    2: { split; [done|]. intros pk s2 [= <- <-]. split_and!; [done|done|by exists A1|exists a; split; [left|done]]. }
    destruct (IH s1 A1 I1 Hst1 H1 Hnd) as [X1 X2]. rewrite Hch in X1, X2.
    destruct (gc_scan E T ls s1) as [l s2|pk s2| |] eqn:Hsc; try done.
    - split; [|done]. intros l' s2' [= <- <-]. destruct (X1 _ _ eq_refl) as (T2 & (A2 & R2 & H2) & Y1 & Y2 & Y3 & Y4).
      pose proof (turned_trans _ _ _ _ T1 T2) as T3. destruct (ci_known_obj _ _ (i_c _ I) _ _ Hka) as [d Ho].
      assert (a ∉ l) as Hal by (intros Hl; by apply Ha, Y3).
      split; [done|]. split; [exists A2; split; [by etransitivity|done]|]. split_and!.
      + intros b [->|Hb]%elem_of_cons; [eauto|by apply Y1].
      + intros b w [->|Hb]%elem_of_cons Hw.
        * assert (w = o) as -> by congruence. unfold dead. split.
          -- case_bool_decide as Hd; cbn; [by intros ?|]. intros _. apply (tu_dead _ _ _ T2); [|done]. exists (d, a). by apply (tu_objs _ _ _ T1).
          -- intros Hd. rewrite bool_decide_eq_false_2; [left|]. apply (tu_dead _ _ _ T1); [by exists (d, a)|done].
        * assert (b ≠ a) as Hba by (by intros ->). destruct (Y2 b w Hb Hw) as [Z1 Z2]. split.
          -- intros Hl. apply Z1. destruct (dead _ _); [|done]. by apply elem_of_cons in Hl as [?|?].
          -- intros Hd. assert (b ∈ l) as Hb'; [|destruct (dead _ _); [by right|done]]. apply Z2.
             destruct (ci_known_obj _ _ (i_c _ I) _ _ Hw) as [d' Ho']. apply (tu_dead _ _ _ T1); [by exists (d', b)|done].
      + intros b Hb. destruct (dead _ _); [|right; by apply Y3]. apply elem_of_cons in Hb as [->|Hb]; [left|right; by apply Y3].
      + intros al Hal2. rewrite filter_cons. pose proof (Hal2 a o (elem_of_list_here _ _) Hka) as Hx.
        assert (l = filter (λ a, unreachable al (ch s) a = true) ls) as Hl.
        { apply Y4. intros b w Hb Hw. rewrite (Hal2 b w (elem_of_list_further _ _ _ Hb) Hw).
          destruct (dead _ _); [|done]. rewrite not_elem_of_cons. split; [tauto|]. intros ?. split; [by intros ->|done]. }
        assert (unreachable al (ch s) a = true ↔ o ∉ al) as Hu.
        { clear -Hka. rewrite unreachable_spec, Hka. split; [by intros (? & [= <-] & ?)|eauto]. }
        destruct (decide (unreachable al (ch s) a = true)) as [Hd|Hd]; rewrite <- Hl.
        * destruct (dead (alive s1) o) eqn:Ho2; [done|]. exfalso. apply Hu in Hd. by apply Hd, Hx.
        * destruct (dead (alive s1) o) eqn:Ho2; [|done]. exfalso. apply Hd, Hu. rewrite Hx. intros Hn. apply Hn. left.
    - split; [done|]. intros pk' s2' [= <- <-]. destruct (X2 _ _ eq_refl) as (-> & T2 & (A2 & R2 & H2) & b & Hb & Hn).
      split; [done|]. split; [by eapply turned_trans|]. split; [exists A2; split; [by etransitivity|done]|]. exists b. split; [by right|done]. }
  split; intros r s' Hx; (destruct (meanwhile_ok _ _ _ _ _ I H Hx) as (s1 & A1 & Hk1 & T1 & I1 & R1 & H1); [done|]);
    rewrite Hst in R1; destruct (Hk s1 A1 T1 I1 R1 H1) as [K1 K2]; [by apply K1|by apply K2].
Qed.

(** What the others do between the removals might as well be done after them. *)
Lemma inv_deps_known dbg P b l c c' : inv_deps dbg P b l c = COk c' → known c' = known c.
Proof.
  revert c. induction l as [|x l IH]; intros c; cbn [inv_deps]; [by intros [= <-]|].
  case_bool_decide; [apply IH|]. destruct (dependents c !! x) as [X|]; [|done]. destruct (_ && _); [done|]. intros Hl. apply IH in Hl.
  rewrite Hl. by case_bool_decide.
Qed.
Lemma inv_loop_known n dbg pr i P L c c' : inv_loop n dbg pr i P L c = COk c' → known c' = known c.
Proof.
  revert i P L c. induction n as [|n IH]; intros i P [|b L] c; cbn [inv_loop]; try done; try (by intros [= <-]).
  cbn zeta. destruct (inv_deps _ _ _ _ _) as [c3| |] eqn:Hd; [|done..]. intros Hl. apply IH in Hl. rewrite Hl. cbn.
  apply inv_deps_known in Hd. done.
Qed.
Lemma inval_known dbg pr a c c' : invalidate_by_id dbg pr a c = COk c' → known c' = known c.
Proof. apply inv_loop_known. Qed.
Lemma gc_loop_shrinks dbg pr i l c c' : gc_loop dbg pr i l c = COk c' → known c' ⊆ known c.
Proof.
  revert i c. induction l as [|a l IH]; intros i c; cbn [gc_loop]; [by intros [= <-]|].
  destruct (invalidate_by_id dbg (pr i) a c) as [c1|k c1|] eqn:Hi; [|done..]. intros Hl. apply IH in Hl. cbn in Hl.
  rewrite (inval_known _ _ _ _ _ Hi) in Hl. etrans; [exact Hl|]. apply delete_subseteq.
Qed.
Lemma gc_reap_ok pr i l s c' :
  gc_loop (e_dbg E) pr i l (ch s) = COk c' →
  (∀ r s2, gc_reap E T pr i l s = Done r s2 → r = OutUnit ∧ ∃ w, performs E [] w (set_ch c' s) = Some s2) ∧
  (∀ k s2, gc_reap E T pr i l s ≠ Panic k s2).
Proof.
  revert i s. induction l as [|a l IH]; intros i s Hl; cbn [gc_reap].
  { cbn in Hl. injection Hl as <-. split; [|done]. intros r s2 [= <- <-]. split; [done|]. exists []. cbn. by destruct s. }
  unfold meanwhile. destruct (performs E [] (T (tick s)) s) as [s1|] eqn:Hp; [|done].
  assert (s = set_ch (ch s) s) as Hs by (by destruct s). rewrite Hs in Hp.
  pose proof (gc_loop_shrinks _ _ _ _ _ _ Hl) as Hsub. pose proof (performs_ch _ _ _ _ _ _ Hsub Hp) as Hp'.
  assert (ch s1 = ch s) as Hch.
  { pose proof (performs_ch _ _ (ch s) (ch s) _ _ (reflexivity _) Hp) as Hq. rewrite Hp in Hq. injection Hq as Hq. by rewrite Hq. }
  rewrite Hch. cbn [gc_loop] in Hl. destruct (invalidate_by_id (e_dbg E) (pr i) a (ch s)) as [c1|k c1|] eqn:Hi; [|done..].
  match goal with |- context [gc_reap E T pr (S i) l ?x] => set (s2 := x) end.
  destruct (IH (S i) s2 Hl) as [X1 X2]. split; [|done]. intros r s3 Hr. destruct (X1 r s3 Hr) as (-> & w & Hw). split; [done|].
  exists (T (tick s) ++ w). rewrite (performs_app _ _ _ _ _ Hp'). exact Hw.
Qed.

Definition r_set_live (X : gset obj) (A : ref) : ref :=
  Ref (r_art A) (r_state A) (r_known A) (r_deps A) (r_stray A) (r_who A) X (r_nobj A) (r_nbin A) (r_tick A) (r_log A).
Lemma shows_live s A X : shows s A → shows (set_alive X s) (r_set_live X A).
Proof. intros H. split; apply H || done. Qed.

Lemma gc_t_sound s A :
  Inv s → stack s = [] → shows s A →
  (∀ r s', gc_t E T s = Done r s' → Inv s' ∧ stack s' = [] ∧ r = OutUnit ∧ r_stray A = ∅ ∧ ∃ A1 F A2, r_others [] A A1 ∧
     r_garbage_since A A1 F ∧ r_others [] (r_unknow F (r_forget F A1)) A2 ∧ shows s' (r_tock A2)) ∧
  (∀ k s', gc_t E T s = Panic k s' → Inv s' ∧ k = PkGcIndex ∧ r_stray A ≠ ∅ ∧ ∃ A1, r_others [] A A1 ∧ shows s' (r_tock A1)).
Proof.
  intros I Hst H. unfold gc_t. rewrite (gc_check_ok _ _ (i_c _ I)), andb_false_r.
  set (ls := iter_order (prio E s 0 0) (leafs (ch s))).
  destruct (gc_scan_ok ls s A I Hst H (NoDup_iter_order _ _)) as [X1 X2].
  assert (∀ a, a ∈ ls ↔ a ∈ leafs (ch s)) as Hls by (intros a; apply elem_iter_order).
  destruct (gc_scan E T ls s) as [l s1|k s1| |] eqn:Hsc; try done.
  2: { split; [done|]. intros k' s' [= <- <-]. destruct (X2 _ _ eq_refl) as (-> & T1 & (A1 & R1 & H1) & a & Ha & Hn).
    split; [exact (prim_Inv E _ _ (pm_tick E s1) (prims_Inv E _ _ (tu_prims _ _ _ T1) I))|]. split; [done|].
    split; [|exists A1; split; [done|by apply shows_tock]].
    rewrite (stray_sub s A H). intros Hs. apply Hls, Hs, elem_of_dom in Ha as [? ?]. congruence. }
  destruct (X1 _ _ eq_refl) as (T1 & (A1 & R1 & H1) & Y1 & Y2 & Y3 & Y4). clear X1 X2.
  pose proof (prims_Inv E _ _ (tu_prims _ _ _ T1) I) as I1. pose proof (tu_ch _ _ _ T1) as Hch.
  assert (leafs (ch s) ⊆ dom (known (ch s))) as Hsub.
  { intros a Ha. apply elem_of_dom, Y1. by apply Hls. }
  assert (r_stray A1 = ∅) as Hs1 by (by rewrite (stray_sub s1 A1 H1), Hch).
  assert (r_stray A = ∅) as Hs0 by (by rewrite (stray_sub s A H)).
  (* what was seen alive, or is alive *)
  set (al := alive s1 ∪ list_to_set (snd <$> filter (λ x, x.1 ∉ l) (map_to_list (known (ch s))))).
  assert (∀ a o, known (ch s) !! a = Some o → o ∈ al ↔ o ∈ alive s1 ∨ a ∉ l) as Hal.
  { intros a o Hk. unfold al. rewrite elem_of_union, elem_of_list_to_set, elem_of_list_fmap. split; (intros [?|Hx]; [by left|right]).
    - destruct Hx as ([a' o'] & Heq & [Hn Hx]%elem_of_list_filter). cbn in *. subst o'. apply elem_of_map_to_list in Hx.
      destruct (ci_known_obj _ _ (i_c _ I) _ _ Hx) as [d' Ho']. destruct (ci_known_obj _ _ (i_c _ I) _ _ Hk) as [d Ho]. congruence.
    - exists (a, o). split; [done|]. apply elem_of_list_filter. split; [done|]. by apply elem_of_map_to_list. }
  assert (l = filter (λ a, unreachable al (ch s) a = true) ls) as Hl.
  { apply Y4. intros a o Ha Hk. rewrite (Hal a o Hk). destruct (Y2 a o Ha Hk) as [Z1 Z2]. destruct (decide (a ∈ l)); naive_solver. }
  set (sa := set_alive al s1).
  assert (Inv sa) as Ia.
  { split; try apply I1.
    - intros o. cbn. unfold al. rewrite elem_of_union, elem_of_list_to_set, elem_of_list_fmap. intros [Ho|([a o'] & -> & [_ Hx]%elem_of_list_filter)].
      + by apply (i_alive _ I1).
      + apply elem_of_map_to_list in Hx. rewrite <- Hch in Hx. destruct (ci_known_obj _ _ (i_c _ I1) _ _ Hx) as [d Ho]. cbn. eauto.
    - intros o o' d d' a Hp Hp'. cbn. apply (i_addr _ I1).
      + destruct Hp as [Ho|Hk]; [|by right]. cbn in Ho. unfold al in Ho. rewrite elem_of_union, elem_of_list_to_set, elem_of_list_fmap in Ho.
        destruct Ho as [?|([a' w] & -> & [_ Hx]%elem_of_list_filter)]; [by left|right]. apply elem_of_map_to_list in Hx. exists a'. by rewrite Hch.
      + destruct Hp' as [Ho|Hk]; [|by right]. cbn in Ho. unfold al in Ho. rewrite elem_of_union, elem_of_list_to_set, elem_of_list_fmap in Ho.
        destruct Ho as [?|([a' w] & -> & [_ Hx]%elem_of_list_filter)]; [by left|right]. apply elem_of_map_to_list in Hx. exists a'. by rewrite Hch.
    - intros o. cbn. rewrite (tu_stack _ _ _ T1), Hst. by intros ?%elem_of_nil. }
  pose proof (shows_live s1 A1 al H1) as Ha. fold sa in Ha. destruct (garbage_ex (r_set_live al A1)) as [F HF].
  destruct (gc_shows E 0 sa _ F Ia Ha Hs1 HF) as (s2 & Hs2 & H2).
  cbn [step] in Hs2. assert (garbage_collection (e_dbg E) (prio E sa) (alive sa) (ch sa) = gc_loop (e_dbg E) (prio E s) 1 l (ch s)) as Hg.
  { rewrite (gc_order _ _ (prio E s) _ _ _ (i_c _ Ia)). cbn [sa alive ch set_alive]. rewrite Hch. unfold garbage_collection.
    rewrite (gc_check_ok _ _ (i_c _ I)), andb_false_r. fold ls. rewrite <- Hl.
    assert (forallb (is_known (ch s)) ls = true) as ->; [|done]. apply forallb_forall. intros a Hin%elem_of_list_In.
    apply bool_decide_eq_true. by apply Y1. }
  rewrite Hg in Hs2. destruct (gc_loop (e_dbg E) (prio E s) 1 l (ch s)) as [c'|k c'|] eqn:Hgl; [|done..].
  cbn [lift] in Hs2. injection Hs2 as Hs2.
  assert (Inv (set_ch c' s1)) as I2.
  { assert (Inv (tock (set_ch c' sa))) as I2.
    { assert (step E 0 OGc sa = Done OutUnit (tock (set_ch c' sa))) as Hs3 by (cbn [step]; by rewrite Hg).
      by destruct (step_Inv E 0 OGc sa _ _ Ia ltac:(cbn; rewrite (tu_stack _ _ _ T1); exact Hst) Hs3). }
    split; try apply I2.
    - apply I1.
    - intros o o' d d' a Hp Hp'. apply (i_addr _ I2).
      + destruct Hp as [Ho|Hk]; [left; cbn in *; unfold al; set_solver|by right].
      + destruct Hp' as [Ho|Hk]; [left; cbn in *; unfold al; set_solver|by right].
    - intros o. cbn. rewrite (tu_stack _ _ _ T1), Hst. by intros ?%elem_of_nil. }
  assert (shows (set_ch c' s1) (r_unknow F (r_forget F A1))) as H3.
  { rewrite <- Hs2 in H2. apply (shows_live _ _ (alive s1)) in H2. destruct H2 as [Q1 Q2 Q3 Q4 Q5 Q6 Q7 Q8 Q9 Q10 Q11].
    split; try done; [exact (sh_live _ _ H1)|exact (sh_tick _ _ H1)]. }
  destruct (gc_reap_ok (prio E s) 1 l s1 c') as [Z1 Z2]; [by rewrite Hch|].
  destruct (gc_reap E T (prio E s) 1 l s1) as [r s3|k s3| |] eqn:Hre; try done; [|by destruct (Z2 k s3)].
  destruct (Z1 _ _ eq_refl) as (-> & w & Hw).
  assert (stack (set_ch c' s1) = []) as Hst2 by (cbn; by rewrite (tu_stack _ _ _ T1)).
  destruct (performs_ok [] w (set_ch c' s1) s3 _ I2 H3 Hw) as (T2 & A2 & R2 & H4). rewrite Hst2 in R2.
  split; [|done]. intros r s' [= <- <-].
  split; [exact (prim_Inv E _ _ (pm_tick E s3) (prims_Inv E _ _ (tu_prims _ _ _ T2) I2))|].
  split; [cbn; by rewrite (tu_stack _ _ _ T2)|]. split; [done|]. split; [done|].
  exists A1, F, A2. split; [done|]. split; [|split; [done|by apply shows_tock]].
  split.
  - intros z Hz. apply HF in Hz as (Hz1 & Hz2 & Hz3). cbn in *. split_and!; [done| |done].
    rewrite (sh_live _ _ H1). unfold al in Hz2. clear -Hz2. set_solver.
  - intros z Hz1 Hz2 Hz3. apply HF. cbn. rewrite (sh_known _ _ H) in Hz1. rewrite (sh_live _ _ H) in Hz2.
    assert (∀ u, ¬ depends s u z) as Hnd by (intros u Hu; by apply (Hz3 u), (sh_deps _ _ H)).
    split; [by rewrite (sh_known _ _ H1), (turned_knows _ _ _ _ I T1)|].
    destruct Hz1 as (d & a & Ho & Hk).
    assert (a ∈ ls) as Hleaf.
    { apply Hls, (ci_leaf _ _ (i_c _ I)); [by rewrite Hk|]. intros y Hy.
      destruct (dep_rel_depends s a y I Hy) as (u & z' & du & dw & _ & _ & _ & Hkz & Hdep). apply (Hnd u). by assert (z' = z) as <- by congruence. }
    split.
    + rewrite (Hal a z Hk). destruct (Y2 a z Hleaf Hk) as [W1 W2]. specialize (W2 Hz2). clear -W1 W2. naive_solver.
    + intros u Hu. apply (sh_deps _ _ H1), (turned_depends _ _ _ _ _ I T1) in Hu. by apply (Hnd u).
Qed.

(** ** The other calls *)
Lemma tbuild_spoil kd B o A x A' :
  ThreadSpec.tbuild (e_ask E) kd B o (r_tock (r_spoil o A)) x A' → ThreadSpec.tbuild (e_ask E) kd B o (r_tock A) x A'.
Proof.
  intros H; inversion H; subst.
  - rewrite meet_spoil. by eapply tbuild_noinit.
  - eapply tbuild_ok; [done..|]. by rewrite <- meet_spoil.
  - eapply tbuild_err; [done..|]. by rewrite <- meet_spoil.
  - eapply tbuild_panic; [done..|]. by rewrite <- meet_spoil.
Qed.

(** A call that is one of the sequential model's. *)
Lemma step_sound x A A0 s n :
  Inv s → stack s = [] → shows s A → (∀ h o, x ≠ OGet h o) → x ≠ OGc → r_others (borrows x) A0 A →
  (∀ r s', step E n x s = Done r s' → Inv s' ∧ stack s' = [] ∧ ∃ A', tcall x A0 (Returned r) A' ∧ shows s' A') ∧
  (∀ k s', step E n x s = Panic k s' → ∃ A', tcall x A0 (Panicked k) A' ∧ (k ≠ PkCounterpart → Inv (unwound s') ∧ shows s' A')).
Proof.
  intros I Hst H Hx Hg R. split.
  - intros r s' Hs. destruct (step_Inv E n x s r s' I Hst Hs) as [I' Hst']. split; [done|]. split; [done|].
    destruct (call_sound E x A s n (Returned r) s' I Hst H Hs) as (A' & Hc & H'). exists A'. split; [by eapply tc_call|by apply H'].
  - intros k s' Hs. destruct (call_sound E x A s n (Panicked k) s' I Hst H Hs) as (A' & Hc & H'). exists A'. split; [by eapply tc_call|].
    intros Hk. split; [|apply H'; congruence].
    destruct (step_panic E n x s k s' I Hst Hs) as [[-> I']|[(-> & _)|[_ ->]]]; done.
Qed.

Lemma get_mut_t_sound o f A A0 s n :
  Inv s → stack s = [] → shows s A → r_others [o] A0 A →
  (∀ r s', get_mut_t E T n o f s = Done r s' → Inv s' ∧ stack s' = [] ∧ ∃ A', tcall (OGetMut o f) A0 (Returned r) A' ∧ shows s' A') ∧
  (∀ k s', get_mut_t E T n o f s = Panic k s' → ∃ A', tcall (OGetMut o f) A0 (Panicked k) A' ∧ (k ≠ PkCounterpart → Inv (unwound s') ∧ shows s' A')).
Proof.
  intros I Hst H R. unfold get_mut_t. destruct (e_kind E) eqn:Hkd; [done|].
  destruct (promise o s) as [[d a]|] eqn:Hp; [|done].
  assert (o ∈ r_live A) as Hl by (rewrite (sh_live _ _ H); by apply promise_Some in Hp as [? _]).
  pose proof (step_sound (OGetMut o f) A A0 s n I Hst H ltac:(done) ltac:(done) R) as Hstep. cbn [step] in Hstep. rewrite Hkd in Hstep.
  destruct (used_dec A o) as [(u & Hu & Hud)|Hno].
  { destruct (lookup_mut_panics E s A o d a u I H Hp Hu Hud) as (c & Hc). rewrite Hc. exact Hstep. }
  destruct (lookup_mut_shows E s A o d a I Hst H Hp Hno) as (c & Hlm & I1 & H1). rewrite Hlm.
  destruct (r_art (r_prepare o A) !! o) as [b|] eqn:Hb; [exact Hstep|]. clear Hstep.
  set (s1 := tock (set_ch c s)) in *. assert (cached s1 o = None) as Hc by (rewrite <- (sh_art _ _ H1); exact Hb).
  destruct (build_t_sound n o s1 d a _ I1 H1 Hp Hc) as [B1 B2]. assert (stack s1 = []) as Hst1 by exact Hst. rewrite Hst1, Hkd in B1, B2.
  destruct (build_t E T n o s1) as [[e|e] s2|k s2| |] eqn:Hbd; try done.
  - destruct (B1 _ _ eq_refl) as ([I2 _] & Hst2 & Hp2 & Hty & A' & Hr & H2). rewrite (Hty e eq_refl), N.eqb_refl. split; [|done].
    intros r s' [= <- <-]. split; [|split; [done|exists (r_write o f A'); split; [|by apply (shows_write s2 A' o d a f)]]].
    + apply Inv_set_ch; [done|done|by apply CInv_write_art, I2|]. intros x y ?. right; eauto.
    + eapply tc_get_mut; [exact R|done|exact Hl|exact Hno|reflexivity|exact Hb|]. apply tbuild_spoil in Hr. exact Hr.
  - destruct (B1 _ _ eq_refl) as ([I2 _] & Hst2 & Hp2 & _ & A' & Hr & H2). split; [|done].
    intros r s' [= <- <-]. do 2 (split; [done|]). exists A'. split; [|done].
    eapply tc_get_mut_err; [exact R|done|exact Hl|exact Hno|reflexivity|exact Hb|]. apply tbuild_spoil in Hr. exact Hr.
  - destruct (B2 _ _ eq_refl) as (-> & I2 & A' & Hr & H2). split; [done|]. intros k s' [= <- <-]. exists A'.
    split; [|intros _; split; [by apply Inv_unwound|done]].
    eapply tc_get_mut_panic; [exact R|done|exact Hl|exact Hno|reflexivity|exact Hb|]. apply tbuild_spoil in Hr. exact Hr.
Qed.

Lemma call_t_sound x A s n :
  Inv s → stack s = [] → shows s A →
  (∀ r s', step_t E T n x s = Done r s' → Inv s' ∧ stack s' = [] ∧ ∃ A', tcall x A (Returned r) A' ∧ shows s' A') ∧
  (∀ k s', step_t E T n x s = Panic k s' → ∃ A', tcall x A (Panicked k) A' ∧ (k ≠ PkCounterpart → Inv (unwound s') ∧ shows s' A')).
Proof.
  intros I Hst H. unfold step_t. set (kk := λ s : st, _).
  assert (∀ s1 A1, turned (borrows x) s s1 → Inv s1 → r_others (borrows x) A A1 → shows s1 A1 →
    (∀ r s', kk s1 = Done r s' → Inv s' ∧ stack s' = [] ∧ ∃ A', tcall x A (Returned r) A' ∧ shows s' A') ∧
    (∀ k s', kk s1 = Panic k s' → ∃ A', tcall x A (Panicked k) A' ∧ (k ≠ PkCounterpart → Inv (unwound s') ∧ shows s' A'))) as Hk.
  { intros s1 A1 T1 I1 R1 H1. assert (stack s1 = []) as Hst1 by (by rewrite (tu_stack _ _ _ T1)).
    assert ((∀ h o, x ≠ OGet h o) → x ≠ OGc → (∀ o f, x ≠ OGetMut o f) → kk s1 = step E n x s1) as Hsimple by (unfold kk; destruct x; naive_solver).
    pose proof (λ Hx Hg, step_sound x A1 A s1 n I1 Hst1 H1 Hx Hg R1) as Hss.
    destruct x as [d|o|h o|o f|h o|o f|o|o f|o|o|o| | | |o| ]; try (rewrite Hsimple by done; apply Hss; done).
    - unfold kk. destruct (get_t_sound (build_t E T n) h o s1 A1 (build_t_sound n) I1 H1) as [G1 G2]. rewrite Hst1 in G1, G2.
      destruct (get_t E T (build_t E T n) h o s1) as [r s2|k s2| |] eqn:Hgt; try done.
      + destruct (G1 _ _ eq_refl) as ([I2 _] & Hst2 & A' & Hg & H2). split; [|done]. intros r' s' [= <- <-]. do 2 (split; [done|]).
        exists A'. split; [|done]. by eapply tc_get.
      + destruct (G2 _ _ eq_refl) as (-> & I2 & A' & Hg & H2). split; [done|]. intros r' s' [= <- <-].
        exists A'. split; [by eapply tc_get_panic|]. intros _. split; [by apply Inv_unwound|done].
    - exact (get_mut_t_sound o f A1 A s1 n I1 Hst1 H1 R1).
    - unfold kk. destruct (gc_t_sound s1 A1 I1 Hst1 H1) as [G1 G2]. split.
      + intros r s' Hr. destruct (G1 _ _ Hr) as (I2 & Hst2 & -> & Hs & A2 & F & A3 & R2 & HF & R3 & H3). do 2 (split; [done|]).
        exists (r_tock A3). split; [|done]. eapply tc_gc; [|by etransitivity|split; [apply HF|]|exact R3].
        * rewrite (stray_sub s A H). rewrite (stray_sub s1 A1 H1), (tu_ch _ _ _ T1) in Hs. exact Hs.
        * intros w Hw1 Hw2 Hw3. apply HF.
          -- by rewrite (sh_known _ _ H1), (turned_knows _ _ _ _ I T1), <- (sh_known _ _ H).
          -- rewrite (sh_known _ _ H) in Hw1. rewrite (sh_live _ _ H1). rewrite (sh_live _ _ H) in Hw2. apply (tu_dead _ _ _ T1); [|done].
             destruct Hw1 as (d & a & Hw1 & _). by eexists.
          -- intros u Hu. apply (Hw3 u). by apply (sh_deps _ _ H), (turned_depends _ _ _ _ _ I T1), (sh_deps _ _ H1).
      + intros k s' Hr. destruct (G2 _ _ Hr) as (I2 & -> & Hs & A2 & R2 & H2). exists (r_tock A2). split.
        * apply tc_gc_panic; [|by etransitivity]. rewrite (stray_sub s A H). rewrite (stray_sub s1 A1 H1), (tu_ch _ _ _ T1) in Hs. exact Hs.
        * intros _. split; [by apply Inv_unwound|done]. }
  split; intros r s' Hx; (destruct (meanwhile_ok _ _ _ _ _ I H Hx) as (s1 & A1 & Hk1 & T1 & I1 & R1 & H1); [done|]);
    rewrite Hst, app_nil_r in R1; destruct (Hk s1 A1 T1 I1 R1 H1) as [K1 K2]; [by apply K1|by apply K2].
Qed.

(** ** Histories *)
Lemma resumable_t x A k A' : tcall x A (Panicked k) A' → resumable k = true ↔ k ≠ PkCounterpart.
Proof. intros H. inversion H; subst; try done. by eapply (resumable_iff E). Qed.

Lemma history_t_sound l s : runs_t E T l s → Inv s ∧ stack s = [] ∧ ∃ A, truns (e_ask E) (e_kind E) l A ∧ shows s A.
Proof.
  intros Hr. induction Hr as [|l s n x r s' Hr IH Hs|l s n x k s' Hr IH Hs Hk].
  - split; [exact Inv_init|]. split; [done|]. exists new_ref. split; [constructor|exact shows_init].
  - destruct IH as (I & Hst & A & HA & H). destruct (call_t_sound x A s n I Hst H) as [X _].
    destruct (X _ _ Hs) as (I' & Hst' & A' & Hc & H'). do 2 (split; [done|]). exists A'. split; [by eapply truns_call|done].
  - destruct IH as (I & Hst & A & HA & H). destruct (call_t_sound x A s n I Hst H) as [_ X].
    destruct (X _ _ Hs) as (A' & Hc & H'). assert (k ≠ PkCounterpart) as Hne by (by apply (resumable_t _ _ _ _ Hc)).
    destruct (H' Hne) as [I' Hsh]. split; [done|]. split; [done|]. exists A'. split; [eapply truns_call; [done..|congruence]|]. by apply shows_stack.
Qed.
End ThreadFacts.
