(** Several caches used while one another's builders are being built: each is the
    reference cache. *)
From Verif Require Export NestSpec ThreadFacts.
From stdpp Require Import relations.

Section NestFacts.
Context (E : env) (K : nat → kind) (plan : nat → option ncall) (code : answer → N).
Notation ask := (e_ask E).
Notation EE := (lane_env E K).

Lemma tlife_others kd l A A' : tlife ask kd l A → r_others ask [] A A' → tlife ask kd l A'.
Proof. intros H Ho. induction Ho as [|A A1 A2 H1 _ IH]; [done|]. apply IH. by eapply tl_others. Qed.

(** A cache with the shared part of [s]. *)
Definition seen (l : lane) (H : list obj) (s : st) : st :=
  St (l_ch l) (objs s) (alive s) (nobj s) (nbin s) (tick s) H (l_reent l) (l_trace l).
Lemma look_seen z H s w : look z H s w = seen (lane_in w z) H s.
Proof. done. Qed.
Lemma seen_self s : seen (Lane (ch s) (reent s) (trace s)) (stack s) s = s.
Proof. by destruct s. Qed.

Definition life (kd : kind) (l : lane) (h : list (op * answer)) (s : st) : Prop :=
  Inv (seen l [] s) ∧ ∃ A, tlife ask kd h A ∧ shows (seen l [] s) A.

(** From [s] to [s'], others did the same things for every lane. *)
Definition elsewhere_n (l : lane) (H : list obj) (s s' : st) : Prop :=
  ∃ T, performs E [] T (seen l H s) = Some (seen l H s').

Lemma life_elsewhere kd l h s s' : elsewhere_n l [] s s' → life kd l h s → life kd l h s'.
Proof.
  intros [T HT] (I & A & HA & H). destruct (performs_ok E [] T _ _ A I H HT) as (T1 & A' & R & H').
  split; [exact (prims_Inv E _ _ (tu_prims _ _ _ _ T1) I)|]. exists A'. split; [|done]. by eapply tlife_others.
Qed.
Lemma elsewhere_refl l H s : elsewhere_n l H s s.
Proof. by exists []. Qed.
Lemma elsewhere_trans l H s1 s2 s3 : elsewhere_n l H s1 s2 → elsewhere_n l H s2 s3 → elsewhere_n l H s1 s3.
Proof. intros [T1 H1] [T2 H2]. exists (T1 ++ T2). rewrite (performs_app E _ _ _ _ _ H1). done. Qed.

(** What happens to the other caches while the caches [I] do something. *)
Record around (I : list nat) (s : st) (w : world) (s' : st) (w' : world) : Prop := {
  ar_busy : w_busy w' = w_busy w;
  ar_frame : ∀ z H, (z, H) ∈ w_busy w → elsewhere_n (lane_in w z) H s s';
  ar_log : ∃ l, w_log w' = l ++ w_log w ∧
    (∀ z, z ∈ I ∨ z ∈ (w_busy w).*1 → z ∉ cache_of <$> l) ∧
    (∀ z, z ∉ I → z ∉ cache_of <$> l → lane_in w' z = lane_in w z);
  ar_idle : ∀ z, z ∉ I → z ∉ (w_busy w).*1 →
    life (K z) (lane_in w z) (own z (w_log w)) s → life (K z) (lane_in w' z) (own z (w_log w')) s';
  ar_new : ∀ kd, life kd new_lane [] s → life kd new_lane [] s' ∧ ∀ o x, objs s !! o = Some x → objs s' !! o = Some x;
}.
Lemma own_app z l1 l2 : z ∉ cache_of <$> l1 → own z (l1 ++ l2) = own z l2.
Proof.
  induction l1 as [|e l1 IH]; [done|]. cbn. intros [H1 H2]%not_elem_of_cons. destruct e as [j x y|j]; cbn in *; rewrite decide_False by congruence; auto.
Qed.
Lemma around_refl I s w : around I s w s w.
Proof.
  split; try done.
  - intros. apply elsewhere_refl.
  - exists []. split; [done|]. split; [|done]. intros z _. apply not_elem_of_nil.
Qed.
Lemma around_trans I s1 w1 s2 w2 s3 w3 : (∀ z, z ∈ I → z ∉ (w_busy w1).*1) → around I s1 w1 s2 w2 → around I s2 w2 s3 w3 → around I s1 w1 s3 w3.
Proof.
  intros HI [B1 F1 (l1 & L1 & M1 & N1) P1 Q1] [B2 F2 (l2 & L2 & M2 & N2) P2 Q2]. rewrite B1 in *. split; [done| | | |].
  - intros z H Hz. eapply elsewhere_trans; [by apply F1|].
    assert (z ∈ (w_busy w1).*1) as Hz1 by (apply elem_of_list_fmap; by exists (z, H)).
    rewrite <- (N1 z); [by apply F2|intros ?; by eapply HI|]. apply M1. by right.
  - exists (l2 ++ l1). split; [by rewrite L2, L1, app_assoc|]. split.
    + intros z Hz. rewrite fmap_app, elem_of_app. intros [Hn|Hn]; [by eapply M2|by eapply M1].
    + intros z Hz. rewrite fmap_app, elem_of_app. intros Hn. rewrite N2, N1; tauto.
  - intros z Hz Hb Hl. apply P2; [done|done|]. by apply P1.
  - intros kd Hl. destruct (Q1 kd Hl) as [Hl2 X1]. destruct (Q2 kd Hl2) as [Hl3 X2]. split; [done|]. auto.
Qed.

(** Nothing but what [T] says happened, and the lanes are the same. *)
Lemma around_acts i s w s' T :
  i ∉ (w_busy w).*1 →
  (∀ l H, (H = [] ∨ ∃ z, (z, H) ∈ w_busy w) → (l = new_lane ∨ ∃ z, z ≠ i ∧ w_lanes w !! z = Some l) →
    performs E [] T (seen l H s) = Some (seen l H s')) →
  around [i] s w s' w.
Proof.
  intros Hi HT.
  assert (∀ z H, z ≠ i → (H = [] ∨ ∃ z, (z, H) ∈ w_busy w) → elsewhere_n (lane_in w z) H s s') as Hz.
  { intros z H Hz HH. exists T. apply HT; [done|]. unfold lane_in. destruct (w_lanes w !! z) as [l|] eqn:Hl; [right; by exists z|by left]. }
  split; [done| | | |].
  - intros z H Hb. apply Hz; [|right; by exists z]. intros ->. apply Hi, elem_of_list_fmap. by exists (i, H).
  - exists []. split; [done|]. split; [|done]. intros z _. apply not_elem_of_nil.
  - intros z Hzi _. apply life_elsewhere, Hz; [|by left]. by rewrite elem_of_list_singleton in Hzi.
  - intros kd Hl. split; [eapply life_elsewhere; [exists T; apply HT; by left|done]|].
    destruct Hl as (I & A & _ & H). destruct (performs_ok E [] T _ _ A I H (HT new_lane [] ltac:(by left) ltac:(by left))) as (T1 & _).
    exact (tu_objs _ _ _ _ T1).
Qed.

Definition same_rest (s s' : st) : Prop :=
  objs s' = objs s ∧ alive s' = alive s ∧ nobj s' = nobj s ∧ nbin s' = nbin s ∧ tick s' = tick s.
Lemma around_quiet i s w s' : i ∉ (w_busy w).*1 → same_rest s s' → around [i] s w s' w.
Proof. intros Hi (H1 & H2 & H3 & H4 & H5). apply (around_acts i s w s' []); [done|]. intros l H _ _. unfold seen. by rewrite H1, H2, H3, H4, H5. Qed.
Lemma around_tick i s w s' : i ∉ (w_busy w).*1 → same_rest (tock s) s' → around [i] s w s' w.
Proof. intros Hi (H1 & H2 & H3 & H4 & H5). apply (around_acts i s w s' [ASleep]); [done|]. intros l H _ _. unfold seen. cbn. by rewrite H1, H2, H3, H4, H5. Qed.
Lemma around_bin i s w : i ∉ (w_busy w).*1 → around [i] s w (tock (set_nbin (N.succ (nbin s)) s)) w.
Proof. intros Hi. by apply (around_acts i s w _ [ABin]). Qed.
Lemma around_alloc i d s w o s' : i ∉ (w_busy w).*1 → alloc_n E i d s w = Some (o, s') → around [i] s w s' w.
Proof.
  intros Hi. unfold alloc_n. destruct (forallb _ _) eqn:Hp; [|done]. intros Ha. apply (around_acts i s w s' [ANew d]); [done|].
  intros l H _ Hl. cbn [performs perform].
  assert (is_known (l_ch l) (ask (tick s)) = false) as Hk.
  { unfold is_known. apply bool_decide_eq_false. intros [x Hx]. destruct Hl as [->|(z & Hz & Hl)]; [cbn in Hx; by rewrite lookup_empty in Hx|].
    rewrite forallb_forall in Hp. specialize (Hp (z, l)). rewrite <- elem_of_list_In, elem_of_map_to_list in Hp. specialize (Hp Hl).
    cbn in Hp. apply orb_true_iff in Hp as [Hp|Hp]; apply bool_decide_eq_true in Hp; congruence. }
  unfold alloc in Ha |- *. cbn [seen tick objs alive ch]. rewrite Hk, orb_false_r.
  destruct (bool_decide (set_Exists _ _)); [done|]. cbn [orb] in Ha |- *. destruct (is_known (ch s) (ask (tick s))); [done|].
  injection Ha as <- <-. done.
Qed.
Lemma around_drop i o s w s' : i ∉ (w_busy w).*1 → drop_n o s w = Some s' → around [i] s w s' w.
Proof.
  intros Hi. unfold drop_n. destruct (existsb _ _) eqn:Hb; [done|]. destruct (drop_obj o s) as [s1|] eqn:Hd; [|done]. intros [= <-].
  apply drop_Some in Hd as (Hal & _ & ->). apply (around_acts i s w _ [ADrop o]); [done|]. intros l H HH _. cbn [performs perform].
  rewrite bool_decide_eq_false_2 by apply not_elem_of_nil. unfold drop_obj. cbn [seen alive stack].
  rewrite bool_decide_eq_true_2 by done. rewrite bool_decide_eq_false_2; [done|]. intros Ho.
  destruct HH as [->|[z Hz]]; [by apply not_elem_of_nil in Ho|]. apply not_true_iff_false in Hb. apply Hb, existsb_exists.
  exists (z, H). rewrite <- elem_of_list_In. split; [done|]. by apply bool_decide_eq_true.
Qed.

(** ** Building *)
Record ok (i : nat) (s : st) (w : world) : Prop := {
  ok_free : i ∉ (w_busy w).*1;
  ok_idle : ∀ z, z ≠ i → z ∉ (w_busy w).*1 → life (K z) (lane_in w z) (own z (w_log w)) s;
  ok_new : ∀ kd, life kd new_lane [] s;
}.
Lemma around_ok i s w s' w' : ok i s w → around [i] s w s' w' → ok i s' w'.
Proof.
  intros [O1 O2 O3] [B _ _ P Q]. split; [by rewrite B| |].
  - intros z Hz. rewrite B. intros Hb. apply P; [by rewrite elem_of_list_singleton|done|by apply O2].
  - intros kd. by apply Q.
Qed.
Lemma around_then i s w s1 w1 s2 w2 : ok i s w → around [i] s w s1 w1 → around [i] s1 w1 s2 w2 → around [i] s w s2 w2.
Proof. intros O. apply around_trans. intros z ->%elem_of_list_singleton. apply O. Qed.

(** How a call, or a part of it, ends: [Rel] relates its result with the states. *)
Definition ends {R} (i : nat) (s : st) (w : world) (Rel : option R → st → ref → Prop) (x : nres R) : Prop :=
  match x with
  | NDone r s' w' => grows s s' ∧ stack s' = stack s ∧ around [i] s w s' w' ∧ ∃ A', Rel (Some r) s' A' ∧ shows s' A'
  | NPanic k s' w' => k = PkUser ∧ Inv s' ∧ around [i] s w s' w' ∧ ∃ A', Rel None s' A' ∧ shows s' A'
  | NStop => True
  end.

Lemma ends_bind {R Q} i s w (Rel : option R → st → ref → Prop) (Rel2 : option Q → st → ref → Prop) x f :
  ok i s w → ends i s w Rel x → (∀ s' A', Rel None s' A' → Rel2 None s' A') →
  (∀ r s1 w1 A1, Inv s1 → grows s s1 → stack s1 = stack s → ok i s1 w1 → shows s1 A1 → Rel (Some r) s1 A1 → ends i s1 w1 Rel2 (f r s1 w1)) →
  ends i s w Rel2 (nbind x f).
Proof.
  intros O Hx Hn Hf. destruct x as [r s1 w1|k s1 w1|]; cbn [nbind ends] in *; [| |done].
  - destruct Hx as (G & Hst & Ha & A1 & HR & H1). specialize (Hf r s1 w1 A1 (proj1 G) G Hst (around_ok _ _ _ _ _ O Ha) H1 HR).
    destruct (f r s1 w1) as [q s2 w2|k s2 w2|]; cbn [ends] in *; [| |done].
    + destruct Hf as (G2 & Hst2 & Ha2 & A2 & HR2 & H2). split; [by eapply grows_trans|]. split; [congruence|]. split; [by eapply around_then|]. by exists A2.
    + destruct Hf as (-> & I2 & Ha2 & A2 & HR2 & H2). do 2 (split; [done|]). split; [by eapply around_then|]. by exists A2.
  - destruct Hx as (-> & I1 & Ha & A1 & HR & H1). do 3 (split; [done|]). exists A1. auto.
Qed.
(** After a step that is the same for all others. *)
Lemma ends_after {R} i s w s1 w1 (Rel Rel2 : option R → st → ref → Prop) x :
  ok i s w → around [i] s w s1 w1 → grows s s1 → stack s1 = stack s → (∀ r s' A', Rel r s' A' → Rel2 r s' A') → ends i s1 w1 Rel x → ends i s w Rel2 x.
Proof.
  intros O Ha G Hst HR Hx. destruct x as [q s2 w2|k s2 w2|]; cbn [ends] in *; [| |done].
  - destruct Hx as (G2 & Hst2 & Ha2 & A2 & HR2 & H2). split; [by eapply grows_trans|]. split; [congruence|]. split; [by eapply around_then|]. exists A2. auto.
  - destruct Hx as (-> & I2 & Ha2 & A2 & HR2 & H2). do 2 (split; [done|]). split; [by eapply around_then|]. exists A2. auto.
Qed.

Definition sound_bn (bld : nat → obj → st → world → nres bres) : Prop :=
  ∀ i o s w d a A, ok i s w → Inv s → shows s A → promise o s = Some (d, a) → cached s o = None →
  ends i s w (λ r s' A', tbuild ask (K i) (stack s) o A (built_res <$> r) A' ∧
    (∀ x, r = Some x → promise o s' = Some (d, a) ∧ ∀ e, x = BOk e → ar_ty e = bd_aty d)) (bld i o s w).

Lemma get_n_sound bld i h o s w A :
  sound_bn bld → ok i s w → Inv s → shows s A →
  ends i s w (λ r _ A', tget ask (K i) (stack s) h o A r A') (get_n E K bld i h o s w).
Proof.
  intros Hb O I H. unfold get_n. destruct (promise o s) as [[d a]|] eqn:Hp; [|done].
  destruct (how_legal (EE i) h) eqn:Hh; [|done]. apply legal_iff in Hh. cbn [lane_env e_kind] in Hh.
  assert (o ∈ r_live A) as Hl by (rewrite (sh_live _ _ H); by apply promise_Some in Hp as [? _]).
  rewrite (lookup_art_ok _ o s d a I Hp).
  pose proof (live_cached s o d a I Hp) as Hc. pose proof (sh_art _ _ H o) as Hra.
  destruct (artifacts (ch s) !! a) as [e|] eqn:He; cbn in Hc.
  - split; [done|]. split; [done|]. split; [apply around_refl|]. exists A. split; [|done]. apply tget_hit; [done..|congruence].
  - eapply ends_bind; [done|exact (Hb i o s w d a A O I H Hp Hc)| |].
    + intros s' A' [Hr _]. eapply tget_panicked; [done..|congruence|exact Hr].
    + intros [e|e] s1 w1 A1 I1 G1 Hst1 O1 H1 [Hr Hx].
      * destruct (Hx _ eq_refl) as [_ Hty]. rewrite (Hty e eq_refl), N.eqb_refl. split; [done|]. split; [done|]. split; [apply around_refl|].
        exists A1. split; [|done]. eapply tget_built; [done..|congruence|exact Hr].
      * split; [done|]. split; [done|]. split; [apply around_refl|].
        exists A1. split; [|done]. eapply tget_failed; [done..|congruence|exact Hr].
Qed.

Lemma resolve_n_sound bld i u du ua S h o s w A :
  sound_bn bld → ok i s w → Inv s → shows s A → stack s = u :: S → objs s !! u = Some (du, ua) →
  ends i s w (λ r _ A', ∃ A1, tget ask (K i) (u :: S) h o (r_note (EResolve u o) (r_use u o (r_meet o A))) r A1 ∧
    A' = match r with Some r => r_note (EGot u o r) A1 | None => A1 end) (resolve_n E K bld i u ua h o s w).
Proof.
  intros Hb O I H Hst Hu. unfold resolve_n. destruct (promise o s) as [[d oa]|] eqn:Hp; [|done].
  destruct (shows_track E s A u S du ua o d oa I H Hst Hu Hp) as (c & -> & P1 & H1).
  pose proof (prims_grows E _ _ I P1) as G0. pose proof (proj1 G0) as I1. set (s1 := log (EResolve u o) (set_ch c s)) in *.
  assert (around [i] s w s1 w) as Ar by (apply around_quiet; [apply O|done]).
  eapply (ends_after i s w s1 w); [done|done|done|done|intros r s' A' HR; exact HR|].
  eapply ends_bind; [by eapply around_ok|exact (get_n_sound bld i h o s1 w _ Hb (around_ok _ _ _ _ _ O Ar) I1 H1)| |].
  - intros s' A' Hr. exists A'. assert (stack s1 = u :: S) as Hst1 by exact Hst. rewrite Hst1 in Hr. done.
  - intros r s2 w2 A2 I2 G2 Hst2 O2 H2 Hr. split; [split; [by apply Inv_log|done]|]. split; [done|].
    split; [apply around_quiet; [apply O2|done]|]. exists (r_note (EGot u o r) A2). split; [|by apply shows_log].
    exists A2. assert (stack s1 = u :: S) as Hst1 by exact Hst. rewrite Hst1 in Hr. done.
Qed.

(** ** Calling another cache *)
Definition sound_call (bld : nat → obj → st → world → nres bres) : Prop :=
  ∀ c s w y s' w', (∀ z, z ∉ (w_busy w).*1 → life (K z) (lane_in w z) (own z (w_log w)) s) → (∀ kd, life kd new_lane [] s) →
  act_n E K bld c s w = NDone y s' w' → around [] s w s' w'.

Lemma nested_sound bld i c s w A y s' w' :
  sound_call bld → ok i s w → Inv s → shows s A → nested E K bld i c s w = NDone y s' w' →
  grows s s' ∧ stack s' = stack s ∧ around [i] s w s' w' ∧ ∃ A', r_others ask (stack s) A A' ∧ shows s' A'.
Proof.
  intros Hc O I H. unfold nested. set (w1 := with_busy _ _).
  destruct (act_n E K bld c s w1) as [y1 s2 w2|k s2 w2|] eqn:Ha; cbn [nbind]; try done. intros [= <- <- <-].
  assert (∀ z, z ≠ i → lane_in w1 z = lane_in w z) as Hlane by (intros z Hz; unfold lane_in; cbn; by rewrite lookup_insert_ne).
  assert (lane_in w1 i = Lane (ch s) (reent s) (trace s)) as Hi by (unfold lane_in; cbn; by rewrite lookup_insert).
  assert (around [] s w1 s2 w2) as [B F (l & L & M & Nn) P Q].
  { apply (Hc c s w1 y1); [|apply O|exact Ha]. intros z Hz. cbn in Hz. apply not_elem_of_cons in Hz as [Hz Hz2].
    rewrite Hlane by done. by apply O. }
  assert (lane_in w2 i = lane_in w1 i) as Hi2. { apply Nn; [apply not_elem_of_nil|]. apply M. right. cbn. left. }
  destruct (F i (stack s)) as [T HT]; [left|]. rewrite Hi, seen_self in HT.
  rewrite look_seen, Hi2, Hi.
  destruct (performs_ok E [] T s _ A I H HT) as (T1 & A' & R & H').
  split; [exact (prims_grows E _ _ I (tu_prims _ _ _ _ T1))|]. split; [done|]. split; [|by exists A'].
  split; [done| | | |].
  - intros z Hz Hb. assert (z ≠ i) as Hzi by (intros ->; apply (ok_free _ _ _ O), elem_of_list_fmap; by exists (i, Hz)).
    rewrite <- Hlane by done. destruct (F z Hz) as [T2 HT2]; [right; done|]. exists T2. exact HT2.
  - exists l. split; [done|]. split.
    + intros z Hz. apply M. right. cbn. rewrite elem_of_cons. rewrite elem_of_list_singleton in Hz. tauto.
    + intros z Hz Hn. rewrite elem_of_list_singleton in Hz. rewrite <- Hlane by done. apply Nn; [apply not_elem_of_nil|done].
  - intros z Hz Hb Hl. rewrite elem_of_list_singleton in Hz. apply P; [apply not_elem_of_nil| |].
    + cbn. rewrite not_elem_of_cons. done.
    + by rewrite Hlane.
  - exact Q.
Qed.

Lemma run_n_sound bld i u du ua S :
  sound_bn bld → sound_call bld → ∀ p s w A, ok i s w → Inv s → shows s A → stack s = u :: S → objs s !! u = Some (du, ua) →
  ends i s w (λ r _ A', trun ask (K i) (u :: S) u p A r A') (exec_n E K plan code bld i u ua (bd_sty du) p s w).
Proof.
  intros Hb Hc p. induction p as [r| |h o k IH|k IH|v p IH|k IH|v k IH|d k IH|o p IH]; intros s w A O I H Hst Hu; cbn [exec_n].
  - split; [done|]. split; [done|]. split; [apply around_refl|]. exists A. split; [constructor|done].
  - split; [done|]. split; [done|]. split; [apply around_refl|]. exists A. split; [constructor|done].
  - eapply ends_bind; [done|exact (resolve_n_sound bld i u du ua S h o s w A Hb O I H Hst Hu)| |].
    + intros s' A' (A1 & Hr & ->). by eapply trun_resolve_panic.
    + intros r s1 w1 A1 I1 G1 Hst1 O1 H1 (A2 & Hr & ->).
      eapply (ends_after i s1 w1 s1 w1); [done|apply around_refl|done|done| |apply (IH r s1 w1 _ O1 I1 H1); [congruence|by apply G1]].
      intros x s' A' Hx. by eapply trun_resolve.
  - destruct (my_state_at (EE i) s u S du ua I Hst Hu) as (v & Hm & Hv & _). cbn [lane_env e_dbg] in Hm. rewrite Hm.
    assert (r_state A !! u = Some v) as Hv' by (by rewrite (sh_state _ _ H)).
    eapply (ends_after i s w s w); [done|apply around_refl|done|done| |by apply (IH v s w A)]. intros x s' A' Hx. by eapply trun_state.
  - destruct (my_state_at (EE i) s u S du ua I Hst Hu) as (v' & Hm & Hv & Hk & Hd). cbn [lane_env e_dbg] in Hm. rewrite Hm.
    set (s1 := set_ch _ s). assert (prim E s s1) as P1 by (eapply pm_set; eauto). pose proof (prims_grows E _ _ I (rtc_once _ _ P1)) as G1.
    assert (around [i] s w s1 w) as Ar by (apply around_quiet; [apply O|done]).
    eapply (ends_after i s w s1 w); [done|done|done|done| |apply (IH s1 w (r_put u v A)); [by eapply around_ok|apply G1|by eapply shows_put|done|done]].
    intros x s' A' Hx. by eapply trun_set.
  - destruct (plan (tick s)) as [c|] eqn:Hpl.
    + assert (around [i] s w (tock s) w) as Ar0 by (apply around_tick; [apply O|done]).
      assert (prim E s (tock s)) as P0 by constructor. pose proof (prims_grows E _ _ I (rtc_once _ _ P0)) as G0.
      pose proof (around_ok _ _ _ _ _ O Ar0) as O0.
      eapply (ends_after i s w (tock s) w); [done|done|done|done|intros x s' A' Hx; eapply trun_others; [apply rtc_once, ra_sleep|exact Hx]|].
      destruct (nested E K bld i c (tock s) w) as [y s1 w1|k1 s1 w1|] eqn:Hn; cbn [nbind]; [| |done].
      2: { unfold nested in Hn. destruct (act_n _ _ _ _ _ _) as [| |] eqn:Ha; try done. unfold act_n in Ha. destruct c; repeat case_match; done. }
      destruct (nested_sound bld i c (tock s) w (r_tock A) y s1 w1 Hc O0 (proj1 G0) (shows_tock _ _ H) Hn) as (G1 & Hst1 & Ar1 & A1 & R1 & H1).
      destruct (e_ask E (tick s1) =? code y)%N eqn:Hcode; [|done]. apply N.eqb_eq in Hcode.
      eapply (ends_after i (tock s) w s1 w1); [done|done|done|done|intros x s' A' Hx; eapply trun_others; [rewrite <- Hst; exact R1|exact Hx]|].
      pose proof (around_ok _ _ _ _ _ O0 Ar1) as O1.
      assert (around [i] s1 w1 (tock s1) w1) as Ar2 by (apply around_tick; [apply O1|done]).
      assert (prim E s1 (tock s1)) as P2 by constructor. pose proof (prims_grows E _ _ (proj1 G1) (rtc_once _ _ P2)) as G2.
      eapply (ends_after i s1 w1 (tock s1) w1); [done|done|done|done| |apply (IH (code y) (tock s1) w1 (r_tock A1)); [by eapply around_ok|apply G2|by apply shows_tock|by rewrite <- Hst|exact (proj2 G1 _ _ Hu)]].
      intros x s' A' Hx. eapply trun_ask. by rewrite (sh_tick _ _ H1), Hcode.
    + assert (around [i] s w (tock s) w) as Ar2 by (apply around_tick; [apply O|done]).
      assert (prim E s (tock s)) as P2 by constructor. pose proof (prims_grows E _ _ I (rtc_once _ _ P2)) as G2.
      eapply (ends_after i s w (tock s) w); [done|done|done|done| |apply (IH (ask (tick s)) (tock s) w (r_tock A)); [by eapply around_ok|apply G2|by apply shows_tock|done|done]].
      intros x s' A' Hx. eapply trun_ask. by rewrite (sh_tick _ _ H).
  - assert (around [i] s w (tock (set_nbin (N.succ (nbin s)) s)) w) as Ar by (apply around_bin, O).
    assert (rtc (prim E) s (tock (set_nbin (N.succ (nbin s)) s))) as P1 by (eapply rtc_l; [apply pm_newbin|apply rtc_once, pm_tick]).
    pose proof (prims_grows E _ _ I P1) as G1.
    eapply (ends_after i s w _ w); [done|exact Ar|done|done| |apply (IH (Bin (nbin s) v) _ w (r_tock (r_newbin A))); [by eapply around_ok|apply G1|by apply shows_tock, shows_newbin|done|done]].
    intros x s' A' Hx. eapply trun_newbin. rewrite (sh_nbin _ _ H). eapply trun_others; [|exact Hx]. apply rtc_once. constructor.
  - destruct (alloc_n E i d s w) as [[o s1]|] eqn:Hal; [|done]. pose proof (around_alloc i d s w o s1 (ok_free _ _ _ O) Hal) as Ar.
    assert (alloc E d s = Some (o, s1)) as Ha1 by (unfold alloc_n in Hal; by destruct (forallb _ _)).
    pose proof (alloc_iff E s A d I H) as Ha. rewrite Ha1 in Ha. destruct Ha as (Hfr & -> & H1).
    assert (prim E s s1) as P1 by (eapply pm_alloc; exact Ha1).
    assert (stack s1 = stack s) as Hst1 by (by apply alloc_Some in Ha1 as (_ & -> & _)). pose proof (prims_grows E _ _ I (rtc_once _ _ P1)) as G1.
    eapply (ends_after i s w s1 w); [done|done|done|done| |apply (IH (r_nobj A) s1 w _ (around_ok _ _ _ _ _ O Ar) (proj1 G1) H1); [congruence|exact (proj2 G1 _ _ Hu)]].
    intros x s' A' Hx. by eapply trun_new.
  - destruct (drop_n o s w) as [s2|] eqn:Hdr; [|done]. pose proof (around_drop i o s w s2 (ok_free _ _ _ O) Hdr) as Ar.
    unfold drop_n in Hdr. destruct (existsb _ _); [done|]. pose proof (drop_iff s A o H) as Ha. destruct (drop_obj o s) as [s1|] eqn:Hal; [|done].
    injection Hdr as <-. destruct Ha as (Hl & Hns & H1). assert (rtc (prim E) s (tock s1)) as P1 by (eapply rtc_l; [eapply pm_drop; exact Hal|apply rtc_once, pm_tick]). rewrite Hst in Hns.
    assert (stack s1 = stack s) as Hst1 by (by apply drop_Some in Hal as (_ & _ & ->)). pose proof (prims_grows E _ _ I P1) as G1.
    eapply (ends_after i s w (tock s1) w); [done|done|done|done| |apply (IH (tock s1) w (r_tock (r_drop o A)) (around_ok _ _ _ _ _ O Ar) (proj1 G1)); [by apply shows_tock|by rewrite <- Hst, <- Hst1|exact (proj2 G1 _ _ Hu)]].
    intros x s' A' Hx. eapply trun_drop; [done..|]. eapply trun_others; [|exact Hx]. apply rtc_once. constructor.
Qed.

Lemma build_n_step bld n : sound_bn bld → sound_call bld → bld = build_n E K plan code n → sound_bn (build_n E K plan code (S n)).
Proof.
  intros IHn Hcall -> i o s w d a A O I H Hp Hc. cbn [build_n].
  rewrite Hp. destruct d as [aty sty ini body].
  pose proof (cached_None s o _ a I Hp Hc) as Ha.
  unfold contains_artifact. rewrite Ha. rewrite bool_decide_eq_false_2 by (by intros [? ?]). rewrite andb_false_r.
  destruct (build_start E o s _ a A I H Hp Hc) as (c2 & Hst). cbn [bd_sty bd_init] in Hst.
  apply promise_Some in Hp as Hp'. destruct Hp' as [Hal Ho].
  destruct (r_addr_at s A o _ a H Ho) as (_ & Hdef & _).
  pose proof (sh_state _ _ H o) as Hrs.
  assert (state_of s o = None ∧ ini = None ∨ ∃ v, (state_of s o = Some v ∨ state_of s o = None ∧ ini = Some v) ∧
      ensure_dyn_state a o sty ini (make_known a o (ch s)) = (c2, inr v) ∧
      let s1 := log (ECall o) (set_reent (reent s || bool_decide (o ∈ stack s)) (set_stack (o :: stack s) (set_ch c2 s))) in
      rtc (prim E) s s1 ∧ Inv s1 ∧ shows s1 (r_note (ECall o) (r_put o v (r_meet o A)))) as [[Hn Hi]|(v & Hv & -> & P1 & I1 & H1)].
  { destruct (state_of s o) as [v|], ini as [v'|]; [right; done..|left; done]. }
  - subst ini. rewrite Hn in Hst. destruct Hst as [He H1]. rewrite He. split; [done|].
    assert (c2 = make_known a o (ch s)) as ->.
    { unfold ensure_dyn_state in He. rewrite make_known_idem in He. by destruct (dyn_states _ !! a) as [dv|]; [destruct (_ =? _)%N|]; injection He as <-. }
    split; [eapply (prim_Inv E); [|exact I]; by eapply pm_know|]. split; [apply around_quiet; [apply O|done]|].
    exists (r_meet o A). split; [|done]. split; [|done]. eapply tbuild_noinit; [exact Hdef|congruence|done].
  - assert (r_state A !! o = Some v ∨ r_state A !! o = None ∧ bd_init (BDef aty sty ini body) = Some v) as Hv' by (by rewrite Hrs).
    pose proof (prims_grows E _ _ I P1) as G1. cbn zeta. set (s1 := log _ _) in *.
    assert (around [i] s w s1 w) as Ar by (apply around_quiet; [apply O|done]).
    pose proof (around_ok _ _ _ _ _ O Ar) as O1.
    pose proof (run_n_sound (build_n E K plan code n) i o (BDef aty sty ini body) a (stack s) IHn Hcall body s1 w _ O1 I1 H1 eq_refl Ho) as X.
    cbn [bd_sty] in X.
    destruct (exec_n E K plan code (build_n E K plan code n) i o a sty body s1 w) as [[b|e] s2 w2|k s2 w2|] eqn:Hx; cbn [nbind]; [| | |done].
    + destruct X as ([I2 G2] & Hst2 & Ar2 & A2 & Y & Z).
      assert (objs s2 !! o = Some (BDef aty sty ini body, a)) as Ho2 by (by apply G2). assert (stack s2 = o :: stack s) as Hst2' by exact Hst2.
      destruct (my_state_at E s2 o (stack s) _ a I2 Hst2' Ho2) as (_ & _ & _ & Hk2 & _).
      cbn [artifacts set_artifacts]. rewrite lookup_insert. cbn [ends].
      assert (prim E s2 (set_stack (stack s) (log (EBuilt o b) (set_ch (set_artifacts <[a:=Art aty b]> (ch s2)) s2)))) as P3.
      { exact (pm_ok E s2 o (BDef aty sty ini body) a (stack s) b Hst2' Ho2). }
      split; [eapply grows_trans; [exact G1|]; eapply grows_trans; [split; [exact I2|exact G2]|]; exact (prims_grows E _ _ I2 (rtc_once _ _ P3))|].
      split; [done|]. split.
      { eapply around_then; [exact O|exact Ar|]. eapply around_then; [exact O1|exact Ar2|]. apply around_quiet; [|done].
        apply (ok_free _ _ _ (around_ok _ _ _ _ _ O1 Ar2)). }
      exists (r_note (EBuilt o b) (r_store o b A2)). split; [split|].
      * eapply tbuild_ok; [exact Hdef|exact Hv'|exact Y].
      * intros x [= <-]. split; [|intros e [= <-]; done].
        apply promise_Some. split; [|exact Ho2]. cbn. apply (i_stack _ I2). rewrite Hst2'. left.
      * apply shows_stack, shows_log. exact (shows_store s2 A2 o _ a aty b I2 Z Ho2 Hk2).
    + destruct X as ([I2 G2] & Hst2 & Ar2 & A2 & Y & Z). cbn [ends].
      assert (objs s2 !! o = Some (BDef aty sty ini body, a)) as Ho2 by (by apply G2). assert (stack s2 = o :: stack s) as Hst2' by exact Hst2.
      assert (prim E s2 (set_stack (stack s) (log (EFailed o e) s2))) as P3 by exact (pm_fail E s2 o (stack s) e Hst2').
      split; [eapply grows_trans; [exact G1|]; eapply grows_trans; [split; [exact I2|exact G2]|]; exact (prims_grows E _ _ I2 (rtc_once _ _ P3))|].
      split; [done|]. split.
      { eapply around_then; [exact O|exact Ar|]. eapply around_then; [exact O1|exact Ar2|]. apply around_quiet; [|done].
        apply (ok_free _ _ _ (around_ok _ _ _ _ _ O1 Ar2)). }
      eexists. split; [split; [eapply tbuild_err; [exact Hdef|exact Hv'|exact Y]|]|by apply shows_stack, shows_log].
      intros x [= <-]. split; [|done]. apply promise_Some. split; [|exact Ho2]. cbn. apply (i_stack _ I2). rewrite Hst2'. left.
    + destruct X as (-> & I2 & Ar2 & A2 & Y & Z). cbn [ends]. do 2 (split; [done|]). split; [eapply around_then; [exact O|exact Ar|exact Ar2]|].
      exists A2. split; [split; [|done]|done]. eapply tbuild_panic; [exact Hdef|exact Hv'|exact Y].
Qed.

(** ** The calls *)
Lemma around_sleep i s w s' k :
  i ∉ (w_busy w).*1 → objs s' = objs s → alive s' = alive s → nobj s' = nobj s → nbin s' = nbin s → tick s' = k + tick s →
  around [i] s w s' w.
Proof.
  intros Hi H1 H2 H3 H4 H5. apply (around_acts i s w s' (replicate k ASleep)); [done|]. intros l H _ _.
  unfold seen. rewrite H1, H2, H3, H4, H5. clear. generalize (tick s). intros t. revert t. induction k as [|k IH]; intros t; [done|].
  cbn [replicate performs perform]. specialize (IH (S t)). unfold tock. cbn [ch objs alive nobj nbin tick stack reent trace] in *.
  rewrite IH. by rewrite Nat.add_succ_r.
Qed.
Lemma step_rest F n x s : (∀ d, x ≠ OAlloc d) → (∀ o, x ≠ ODrop o) → (∀ h o, x ≠ OGet h o) → (∀ o f, x ≠ OGetMut o f) →
  ∀ s', (∃ r, step F n x s = Done r s') ∨ (∃ k, step F n x s = Panic k s') →
  ∃ k, objs s' = objs s ∧ alive s' = alive s ∧ nobj s' = nobj s ∧ nbin s' = nbin s ∧ tick s' = k + tick s.
Proof.
  intros N1 N2 N3 N4 s' Hs.
  assert ((objs s' = objs s ∧ alive s' = alive s ∧ nobj s' = nobj s ∧ nbin s' = nbin s) ∧ (tick s' = 0 + tick s ∨ tick s' = 1 + tick s)) as [(H1 & H2 & H3 & H4) [H5|H5]].
  2: by exists 0. 2: by exists 1.
  destruct x as [d|o|h o|o f|h o|o f|o|o f|o|o|o| | | |o| ];
    try (by edestruct N1); try (by edestruct N2); try (by edestruct N3); try (by edestruct N4);
    cbn [step] in Hs; unfold op_lookup_mut, lift in Hs;
    destruct Hs as [[r Hs]|[k Hs]]; repeat case_match; simplify_eq; cbn; (split; [done|tauto]).
Qed.

Lemma is_gc (x : op) : x = OGc ∨ x ≠ OGc.
Proof. destruct x; auto. Qed.

Definition call_ends (j : nat) (x : op) (s : st) (w : world) (A : ref) (z : nres out) : Prop :=
  match z with
  | NDone r s' w' => Inv s' ∧ stack s' = [] ∧ around [j] s w s' w' ∧
      ∃ A' A2, tcall ask (K j) x A (Returned r) A' ∧ r_others ask [] A' A2 ∧ shows s' A2
  | NPanic k s' w' => around [j] s w s' w' ∧ ∃ A', tcall ask (K j) x A (Panicked k) A' ∧ (k ≠ PkCounterpart → Inv (unwound s') ∧ shows s' A')
  | NStop => True
  end.

Lemma gc_tcall kd A y A' : rcall ask kd OGc A y A' → tcall ask kd OGc A y A'.
Proof.
  intros Hc. inversion Hc; subst.
  - match goal with Hm : mut_of _ _ |- _ => by destruct Hm as [[? ?]|[? ?]] end.
  - match goal with HF : r_garbage _ _ |- _ => rename HF into HG end.
    eapply tc_gc; [done|apply rtc_refl| |apply rtc_refl]. split; [by intros w Hw; apply HG|by intros w H1 H2 H3; apply HG].
  - eapply tc_gc_panic; [done|apply rtc_refl].
Qed.

Lemma plain_ends j x s w A :
  ok j s w → Inv s → stack s = [] → shows s A → (∀ h o, x ≠ OGet h o) →
  (∀ s', (∃ r, step (EE j) 0 x s = Done r s') ∨ (∃ k, step (EE j) 0 x s = Panic k s') →
    ∃ k, objs s' = objs s ∧ alive s' = alive s ∧ nobj s' = nobj s ∧ nbin s' = nbin s ∧ tick s' = k + tick s) →
  call_ends j x s w A (plain w (step (EE j) 0 x s)).
Proof.
  intros O I Hst H Hx Hr.
  assert (∀ s', (∃ r, step (EE j) 0 x s = Done r s') ∨ (∃ k, step (EE j) 0 x s = Panic k s') → around [j] s w s' w) as Har.
  { intros s' Hs'. destruct (Hr s' Hs') as (k & H1 & H2 & H3 & H4 & H5). eapply around_sleep; [apply O|done..]. }
  destruct (step (EE j) 0 x s) as [r s'|k s'| |] eqn:Hs; cbn [plain call_ends]; try done.
  - destruct (step_Inv (EE j) 0 x s r s' I Hst Hs) as [I' Hst']. split; [done|]. split; [done|]. split; [apply Har; left; by eexists|].
    destruct (call_sound (EE j) x A s 0 (Returned r) s' I Hst H Hs) as (A' & Hc & H'). exists A', A'. split; [|split; [apply rtc_refl|by apply H']].
    destruct (is_gc x) as [->|Hg].
    + by apply gc_tcall.
    + eapply tc_call; [done|exact Hg|apply rtc_refl|exact Hc].
  - split; [apply Har; right; by eexists|].
    destruct (call_sound (EE j) x A s 0 (Panicked k) s' I Hst H Hs) as (A' & Hc & H'). exists A'. split.
    + destruct (is_gc x) as [->|Hg].
      * by apply gc_tcall.
      * eapply tc_call; [done|exact Hg|apply rtc_refl|exact Hc].
    + intros Hk. split; [|apply H'; congruence].
      destruct (step_panic (EE j) 0 x s k s' I Hst Hs) as [[-> I']|[(-> & -> & -> & _)|[_ ->]]]; [done|by apply Inv_unwound, Inv_tock|done].
Qed.

Lemma get_mut_n_sound bld j o f s w A :
  sound_bn bld → ok j s w → Inv s → stack s = [] → shows s A →
  call_ends j (OGetMut o f) s w A (get_mut_n E K bld j o f s w).
Proof.
  intros Hb O I Hst H. unfold get_mut_n. destruct (K j) eqn:Hkd; [done|].
  destruct (promise o s) as [[d a]|] eqn:Hp; [|done].
  assert (o ∈ r_live A) as Hl by (rewrite (sh_live _ _ H); by apply promise_Some in Hp as [? _]).
  assert ((∀ c, lookup_mut (e_dbg E) (prio E s) a (bd_aty d) (ch s) ≠ (COk c, LNone)) →
    call_ends j (OGetMut o f) s w A (plain w (op_get_mut (EE j) 0 o f s))) as Hplain.
  { intros Hn. apply (plain_ends j (OGetMut o f)); [done..|]. intros s' Hs'. cbn [step] in Hs'. unfold op_get_mut in Hs'.
    rewrite Hp in Hs'. cbn [lane_env e_kind e_dbg] in Hs'. rewrite Hkd in Hs'. change (prio (EE j)) with (prio E) in Hs'.
    destruct (lookup_mut (e_dbg E) (prio E s) a (bd_aty d) (ch s)) as [[c|k c|] lr] eqn:Hlm; [destruct lr|..]; try (by edestruct Hn);
      destruct Hs' as [[r Hs']|[k0 Hs']]; repeat case_match; simplify_eq; ((by exists 1) || (by exists 2)). }
  destruct (used_dec A o) as [(u & Hu & Hud)|Hno].
  { destruct (lookup_mut_panics E s A o d a u I H Hp Hu Hud) as (c & Hc). rewrite Hc in Hplain |- *. by apply Hplain. }
  destruct (lookup_mut_shows E s A o d a I Hst H Hp Hno) as (c & Hlm & I1 & H1). rewrite Hlm in Hplain |- *.
  destruct (r_art (r_prepare o A) !! o) as [b|] eqn:Hra; [by apply Hplain|]. clear Hplain.
  set (s1 := tock (set_ch c s)) in *. assert (cached s1 o = None) as Hc by (rewrite <- (sh_art _ _ H1); exact Hra).
  assert (around [j] s w s1 w) as Ar by (apply around_tick; [apply O|done]). pose proof (around_ok _ _ _ _ _ O Ar) as O1.
  pose proof (Hb j o s1 w d a _ O1 I1 H1 Hp Hc) as X. assert (stack s1 = []) as Hst1 by exact Hst. rewrite Hst1, Hkd in X.
  destruct (bld j o s1 w) as [[e|e] s2 w2|k s2 w2|] eqn:Hbd; cbn [nbind]; [| | |done].
  - destruct X as ([I2 _] & Hst2 & Ar2 & A' & (Hr & Hx) & H2). destruct (Hx _ eq_refl) as [Hp2 Hty]. rewrite (Hty e eq_refl), N.eqb_refl.
    cbn [call_ends]. split; [|split; [exact (eq_trans Hst2 Hst1)|split]].
    + apply Inv_set_ch; [done|exact (eq_trans Hst2 Hst1)|by apply CInv_write_art, I2|]. intros x y ?. right; eauto.
    + eapply around_then; [exact O|exact Ar|]. eapply around_then; [exact O1|exact Ar2|]. apply around_quiet; [|done].
      apply (ok_free _ _ _ (around_ok _ _ _ _ _ O1 Ar2)).
    + exists (r_write o f A'), (r_write o f A'). split; [|split; [apply rtc_refl|by apply (shows_write s2 A' o d a f)]].
      rewrite Hkd. eapply tc_get_mut; [apply rtc_refl|done|exact Hl|exact Hno|reflexivity|exact Hra|]. apply tbuild_spoil in Hr. exact Hr.
  - destruct X as ([I2 _] & Hst2 & Ar2 & A' & (Hr & Hx) & H2). cbn [call_ends]. split; [done|]. split; [exact (eq_trans Hst2 Hst1)|].
    split; [by eapply around_then|]. exists A', A'. split; [|split; [apply rtc_refl|done]].
    rewrite Hkd. eapply tc_get_mut_err; [apply rtc_refl|done|exact Hl|exact Hno|reflexivity|exact Hra|]. apply tbuild_spoil in Hr. exact Hr.
  - destruct X as (-> & I2 & Ar2 & A' & (Hr & Hx) & H2). cbn [call_ends]. split; [by eapply around_then|]. exists A'.
    split; [|intros _; split; [by apply Inv_unwound|done]].
    rewrite Hkd. eapply tc_get_mut_panic; [apply rtc_refl|done|exact Hl|exact Hno|reflexivity|exact Hra|]. apply tbuild_spoil in Hr. exact Hr.
Qed.

Lemma step_n_sound bld j x s w A :
  sound_bn bld → ok j s w → Inv s → stack s = [] → shows s A → call_ends j x s w A (step_n E K bld j x s w).
Proof.
  intros Hb O I Hst H.
  assert ((∀ d, x ≠ OAlloc d) → (∀ o, x ≠ ODrop o) → (∀ h o, x ≠ OGet h o) → (∀ o f, x ≠ OGetMut o f) →
    call_ends j x s w A (plain w (step (EE j) 0 x s))) as Hplain.
  { intros N1 N2 N3 N4. apply plain_ends; [done..|]. by apply step_rest. }
  destruct x as [d|o|h o|o f|h o|o f|o|o f|o|o|o| | | |o| ]; cbn [step_n]; try (by apply Hplain).
  - destruct (alloc_n E j d s w) as [[o s1]|] eqn:Hal; [|done]. pose proof (around_alloc j d s w o s1 (ok_free _ _ _ O) Hal) as Ar.
    assert (alloc E d s = Some (o, s1)) as Ha1 by (unfold alloc_n in Hal; by destruct (forallb _ _)).
    pose proof (alloc_iff E s A d I H) as Ha. rewrite Ha1 in Ha. destruct Ha as (Hfr & -> & H1).
    assert (prim E s s1) as P1 by (eapply pm_alloc; exact Ha1). apply alloc_Some in Ha1 as Ha2. destruct Ha2 as (_ & Heq & _).
    split; [exact (prim_Inv E _ _ P1 I)|]. split; [by rewrite Heq|]. split; [done|].
    eexists _, _. split; [|split; [apply rtc_refl|exact H1]]. eapply tc_call; [done|done|apply rtc_refl|by constructor].
  - destruct (drop_n o s w) as [s2|] eqn:Hdr; [|done]. pose proof (around_drop j o s w s2 (ok_free _ _ _ O) Hdr) as Ar.
    unfold drop_n in Hdr. destruct (existsb _ _); [done|]. pose proof (drop_iff s A o H) as Ha. destruct (drop_obj o s) as [s1|] eqn:Hal; [|done].
    injection Hdr as <-. destruct Ha as (Hl & Hns & H1). assert (prim E s s1) as P1 by (eapply pm_drop; exact Hal).
    split; [exact (Inv_tock _ (prim_Inv E _ _ P1 I))|]. split; [apply drop_Some in Hal as (_ & _ & ->); exact Hst|]. split; [done|].
    exists (r_drop o A), (r_tock (r_drop o A)). split; [eapply tc_call; [done|done|apply rtc_refl|by constructor]|].
    split; [apply rtc_once; constructor|by apply shows_tock].
  - pose proof (get_n_sound bld j h o s w A Hb O I H) as X. rewrite Hst in X.
    destruct (get_n E K bld j h o s w) as [r s1 w1|k s1 w1|]; cbn [nbind]; [| |done].
    + destruct X as ([I1 _] & Hst1 & Ar & A' & Hr & H1). split; [done|]. split; [congruence|]. split; [done|].
      exists A', A'. split; [eapply tc_get; [apply rtc_refl|exact Hr]|]. split; [apply rtc_refl|done].
    + destruct X as (-> & I1 & Ar & A' & Hr & H1). split; [done|]. exists A'. split; [eapply tc_get_panic; [apply rtc_refl|exact Hr]|].
      intros _. split; [by apply Inv_unwound|done].
  - by apply get_mut_n_sound.
Qed.

(** A cache is used: its own life goes on, too. *)
Lemma around_call j x y s w s1 w1 s' A A' A2 :
  j ∉ (w_busy w).*1 → around [j] (look j [] s w) w s1 w1 → (∀ kd, life kd new_lane [] s) →
  life (K j) (lane_in w j) (own j (w_log w)) s → shows (look j [] s w) A → tlife ask (K j) (own j (w_log w)) A →
  tcall ask (K j) x A y A' → y ≠ Panicked PkCounterpart → r_others ask [] A' A2 → Inv s' → stack s' = [] → shows s' A2 → same_rest s1 s' →
  around [] s w s1 (note (MCall j x y) (keep j s' w1)).
Proof.
  intros Hj [B F (l & L & M & Nn) P Q] Hnew Hl H HA Hc Hy R I' Hst' H' (R1 & R2 & R3 & R4 & R5).
  assert (∀ z, z ≠ j → lane_in (note (MCall j x y) (keep j s' w1)) z = lane_in w1 z) as Hlz.
  { intros z Hz. unfold lane_in. cbn. by rewrite lookup_insert_ne. }
  split; [done| | | |].
  - intros z Hz Hb. exact (F z Hz Hb).
  - exists (MCall j x y :: l). split; [cbn; by rewrite L|]. split.
    + intros z [Hz|Hz]; [by apply elem_of_nil in Hz|]. rewrite fmap_cons, not_elem_of_cons. cbn. split; [by intros ->|]. apply M. by right.
    + intros z _. rewrite fmap_cons, not_elem_of_cons. cbn. intros [Hz Hn]. rewrite Hlz by done.
      apply Nn; [by rewrite elem_of_list_singleton|done].
  - intros z _ Hb Hlz0. destruct (decide (z = j)) as [->|Hz].
    + assert (own j (w_log (note (MCall j x y) (keep j s' w1))) = (x, y) :: own j (w_log w)) as ->.
      { cbn. rewrite decide_True by done. rewrite L, own_app; [done|]. apply M. left. apply elem_of_list_here. }
      assert (seen (lane_in (note (MCall j x y) (keep j s' w1)) j) [] s1 = s') as Hs.
      { unfold lane_in. cbn. rewrite lookup_insert. unfold seen. cbn. rewrite <- R1, <- R2, <- R3, <- R4, <- R5, <- Hst'. by destruct s'. }
      unfold life. rewrite Hs. split; [done|]. exists A2. split; [|done]. eapply tlife_others; [|exact R]. by eapply tl_call.
    + rewrite Hlz by done. cbn. rewrite decide_False by done. apply P; [by rewrite elem_of_list_singleton|done|exact Hlz0].
  - intros kd Hk. exact (Q kd Hk).
Qed.

Lemma call_sound_n bld : sound_bn bld → sound_call bld.
Proof.
  intros Hb [j x|j] s w y s' w' Hidle Hnew; cbn [act_n]; (case_bool_decide as Hj; [done|]).
  - destruct (Hidle j Hj) as (I & A & HA & H).
    assert (ok j (look j [] s w) w) as O.
    { split; [done|intros z _ Hz; exact (Hidle z Hz)|exact Hnew]. }
    pose proof (step_n_sound bld j x (look j [] s w) w A Hb O I eq_refl H) as X.
    destruct (step_n E K bld j x (look j [] s w) w) as [r s1 w1|k s1 w1|]; cbn [call_ends] in X; [| |done].
    + destruct X as (I1 & Hst1 & Ar & A' & A2 & Hc & R & H1). intros [= <- <- <-].
      eapply (around_call j x (Returned r) s w s1 w1 s1 A A' A2); [done|done|done|exact (Hidle j Hj)|done|done|done|done|done|done|done|done|done].
    + destruct X as (Ar & A' & Hc & H1). intros Hk.
      assert (k ≠ PkCounterpart ∧ y = Panicked k ∧ s' = s1 ∧ w' = note (MCall j x (Panicked k)) (keep j (unwound s1) w1)) as (Hne & -> & -> & ->) by (destruct k; by simplify_eq). destruct (H1 Hne) as [I1 Hs1].
      eapply (around_call j x (Panicked k) s w s1 w1 (unwound s1) A A' A'); [done|done|done|exact (Hidle j Hj)|done|done|done|congruence|apply rtc_refl|done|done| |done].
      by apply shows_stack.
  - intros [= <- <- <-]. set (w' := note _ _).
    assert (∀ z, z ≠ j → lane_in w' z = lane_in w z) as Hlz by (intros z Hz; unfold lane_in, w'; cbn; by rewrite lookup_delete_ne).
    split; [done|intros; apply elsewhere_refl| | |done].
    + exists [MDrop j]. split; [done|]. split.
      * intros z [Hz|Hz]; [by apply elem_of_nil in Hz|]. cbn. rewrite elem_of_list_singleton. by intros ->.
      * intros z _. cbn. rewrite elem_of_list_singleton. apply Hlz.
    + intros z _ Hz Hl. destruct (decide (z = j)) as [->|Hzj].
      * assert (lane_in w' j = new_lane) as -> by (unfold lane_in, w'; cbn; by rewrite lookup_delete). cbn. rewrite decide_True by done. apply Hnew.
      * rewrite Hlz by done. cbn. by rewrite decide_False.
Qed.

Lemma build_n_sound n : sound_bn (build_n E K plan code n).
Proof.
  induction n as [|n IHn]; [by intros i o s w d a A O I H Hp Hc|]. eapply build_n_step; [exact IHn|by apply call_sound_n|done].
Qed.

(** ** Histories *)
Lemma life_init kd : life kd new_lane [] init_st.
Proof. split; [exact Inv_init|]. exists new_ref. split; [constructor|exact shows_init]. Qed.
Lemma nruns_life l m : nruns E K plan code l m →
  (∀ i, life (K i) (lane_of m i) (own i l) (m_rest m)) ∧ (∀ kd, life kd new_lane [] (m_rest m)).
Proof.
  induction 1 as [|l m n c y s' w' Hr [IH1 IH2] Ha].
  - split; [|exact life_init]. intros i. unfold lane_of. cbn. rewrite lookup_empty. apply life_init.
  - destruct (call_sound_n _ (build_n_sound n) c (m_rest m) (World (m_lanes m) [] l) y s' w') as [B F L P Q]; [intros z _; apply IH1|done|done|].
    split; [|intros kd; apply Q, IH2]. intros i. apply (P i); [apply not_elem_of_nil|apply not_elem_of_nil|apply IH1].
Qed.
End NestFacts.
