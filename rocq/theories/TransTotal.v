(** A [get] has an answer whenever the evaluation from scratch has one, also while
    other threads run. *)
From Verif Require Export TransFacts EvalTotal.
From stdpp Require Import relations.

Section TransTotal.
Context (E : env) (T : nat → list act).
Context (Q : bdef → Prop) (HT : ∀ t d, ANew d ∈ T t → Q d).

(** ** All builders are good if those the others make are *)
Definition good (s : st) : Prop := ∀ o d a, objs s !! o = Some (d, a) → Q d.
Definition keeps_good {R} (x : outcome R) : Prop := (∀ r s', x = Done r s' → good s') ∧ (∀ k s', x = Panic k s' → good s').

Lemma good_alloc d s o s' : Q d → good s → alloc E d s = Some (o, s') → good s'.
Proof.
  intros Hd H Ha. apply alloc_Some in Ha as (-> & -> & _). intros o' d' a'. cbn.
  intros [[<- [= <- <-]]|[_ ?]]%lookup_insert_Some; [done|]. by eapply H.
Qed.
Lemma good_performs B l s s' : (∀ d, ANew d ∈ l → Q d) → good s → performs E B l s = Some s' → good s'.
Proof.
  revert s. induction l as [|x l IH]; intros s Hl H; cbn [performs]; [by intros [= <-]|].
  destruct (perform E B x s) as [s1|] eqn:Hx; [|done]. apply IH; [intros d Hd; apply Hl; by right|].
  destruct x as [d|w| | ]; cbn [perform] in Hx.
  - destruct (alloc E d s) as [[o s2]|] eqn:Ha; [|done]. injection Hx as <-. eapply good_alloc; [|done..]. apply Hl. left.
  - case_bool_decide; [done|]. destruct (drop_obj w s) as [s2|] eqn:Ha; [|done]. injection Hx as <-.
    apply drop_Some in Ha as (_ & _ & ->). exact H.
  - by injection Hx as <-.
  - by injection Hx as <-.
Qed.
Lemma good_meanwhile {R} B s (k : st → outcome R) : good s → (∀ s, good s → keeps_good (k s)) → keeps_good (meanwhile E T B s k).
Proof.
  intros H Hk. unfold meanwhile. destruct (performs E B _ s) as [s1|] eqn:Hp; [|by split]. apply Hk.
  eapply good_performs; [|exact H|exact Hp]. intros d. apply HT.
Qed.
Lemma good_get bld h o s : (∀ o s, good s → keeps_good (bld o s)) → good s → keeps_good (get_t E T bld h o s).
Proof.
  intros Hb H. unfold get_t. destruct (promise o s) as [[d a]|]; [|by split]. destruct (how_legal E h); [|by split].
  apply good_meanwhile; [done|]. clear s H. intros s H. destruct (lookup_art _ _ _ _) as [b| |k]; [by split; intros ? ? [= <- <-]| |by split; intros ? ? [= <- <-]].
  specialize (Hb o s H). destruct (bld o s) as [[e|e] s1|k s1| |].
  - destruct Hb as [X _]. specialize (X _ _ eq_refl). by destruct (_ =? _)%N; split; intros ? ? [= <- <-].
  - destruct Hb as [X _]. specialize (X _ _ eq_refl). by split; intros ? ? [= <- <-].
  - destruct Hb as [_ X]. specialize (X _ _ eq_refl). by split; intros ? ? [= <- <-].
  - by split.
  - by split.
Qed.
Lemma good_resolve bld u ua h w s : (∀ o s, good s → keeps_good (bld o s)) → good s → keeps_good (resolve_t E T bld u ua h w s).
Proof.
  intros Hb H. unfold resolve_t. destruct (promise w s) as [[d a]|]; [|by split].
  destruct (track_dependency _ _ _ _ _) as [c|k c|]; [|by split; intros ? ? [= <- <-]|by split].
  pose proof (good_get bld h w (log (EResolve u w) (set_ch c s)) Hb H) as [X1 X2].
  destruct (get_t _ _ _ _ _ _) as [r s1|k s1| |]; [|by split; intros ? ? [= <- <-]; eapply X2|by split|by split].
  split; [|done]. intros ? ? [= <- <-]. by apply (X1 _ _ eq_refl).
Qed.
(** Builders that make none. *)
Lemma good_exec bld u ua t p : (∀ o s, good s → keeps_good (bld o s)) → ∀ s, pure_prog p → good s → keeps_good (exec_t E T bld u ua t p s).
Proof.
  intros Hb. induction p as [r| |h w k IH|k IH|v p IH|k IH|v k IH|d k IH|w p IH]; intros s0 Hp H0; cbn [exec_t]; try (by destruct Hp);
    (apply good_meanwhile; [done|]); clear s0 H0; intros s H.
  - by split; intros ? ? [= <- <-].
  - by split; intros ? ? [= <- <-].
  - pose proof (good_resolve bld u ua h w s Hb H) as [X1 X2].
    destruct (resolve_t _ _ _ _ _ _ _ _) as [r s1|pk s1| |]; [|by split; intros ? ? [= <- <-]; eapply X2|by split|by split].
    apply IH; [apply Hp|]. by apply (X1 _ _ eq_refl).
  - destruct (my_state _ _ _ _) as [pk|v]; [by split; intros ? ? [= <- <-]|]. apply IH; [apply Hp|done].
  - apply IH; [apply Hp|exact H].
Qed.
Context (HQ : ∀ d, Q d → pure_prog (bd_body d)).
Lemma good_build n o s : good s → keeps_good (build_t E T n o s).
Proof.
  revert o s. induction n as [|n IH]; intros o s H; cbn [build_t]; [by split|].
  destruct (promise o s) as [[[aty sty ini body] a]|] eqn:Hp; [|by split].
  assert (pure_prog body) as Hb. { apply promise_Some in Hp as [_ Ho]. apply (HQ (BDef aty sty ini body)). by eapply H. }
  destruct (_ && _); [by split; intros ? ? [= <- <-]|]. destruct (ensure_dyn_state _ _ _ _ _) as [c [k|v]]; [by split; intros ? ? [= <- <-]|].
  cbn zeta. set (s1 := log _ _).
  pose proof (good_exec (build_t E T n) o a sty body IH s1 Hb H) as [X1 X2].
  destruct (exec_t _ _ _ _ _ _ _ _) as [[b|e] s2|k s2| |].
  - specialize (X1 _ _ eq_refl). destruct (_ !! _); by split; intros ? ? [= <- <-].
  - specialize (X1 _ _ eq_refl). by split; intros ? ? [= <- <-].
  - specialize (X2 _ _ eq_refl). by split; intros ? ? [= <- <-].
  - by split.
  - by split.
Qed.

(** ** Termination *)
Context (HO : ∀ d, Q d → oblivious (bd_body d)).
Context (B : obj → option bdef) (σ : obj → option val).

Definition fits_t (A : ref) : Prop := ∀ o d, B o = Some d → r_def A o = Some d ∧ r_conf A o = σ o.
Lemma fits_t_grow A A' : fits_t A → rgrow A A' → fits_t A'.
Proof.
  intros Hf G o d Hd. destruct (Hf o d Hd) as [H1 H2]. split; [by apply (def_mono A); [apply G|]|].
  rewrite (rg_conf _ _ G); [done|by eapply def_who].
Qed.
Lemma evals_mono B' σ' : (∀ o d, B o = Some d → B' o = Some d ∧ σ' o = σ o) →
  (∀ o r, evals B σ o r → evals B' σ' o r) ∧ (∀ v p r, evals_body B σ v p r → evals_body B' σ' v p r).
Proof.
  intros H. apply (evals_both B σ (λ o r _, evals B' σ' o r) (λ v p r _, evals_body B' σ' v p r)); try (by econstructor).
  - intros o d Hd Hs. destruct (H o d Hd) as [H1 H2]. eapply ev_noinit; [exact H1|congruence].
  - intros o d v r Hd Hs _ IH. destruct (H o d Hd) as [H1 H2]. eapply ev_body; [exact H1|rewrite H2; exact Hs|exact IH].
Qed.
Lemma good_rpure s A : good s → shows s A → rpure A ∧ ∀ o d, r_def A o = Some d → oblivious (bd_body d).
Proof.
  intros H Hs. assert (∀ o d, r_def A o = Some d → Q d) as HA.
  { intros o d. unfold r_def. rewrite (sh_who _ _ Hs). destruct (objs s !! o) as [[d' a]|] eqn:Ho; [|done]. cbn. intros [= ->]. by eapply H. }
  split; intros o d Hd; [apply HQ|apply HO]; by eapply HA.
Qed.
(** The answer of an evaluation along recorded dependencies is that of the
    evaluation from scratch. *)
Lemma fits_t_same s A n w x p y q :
  good s → shows s A → fits_t A → rev_at A w x → eval B σ n w p = Some (y, q) → strip_eres x = strip_eres y.
Proof.
  intros H Hs Hf Hx Hy. apply eval_sound in Hy.
  apply (proj1 (evals_mono (r_def A) (r_conf A) Hf)) in Hy.
  apply evD_evals in Hx. destruct (good_rpure s A H Hs) as [_ HA].
  exact (proj1 (evals_det _ _ HA) w x Hx y Hy).
Qed.

Definition total_bt (n : nat) (bld : obj → st → outcome bres) : Prop :=
  ∀ o s d a A p rp, Inv s → shows s A → rok A → good s → fits_t A → promise o s = Some (d, a) → cached s o = None →
    eval B σ n o p = Some rp → bld o s ≠ NoFuel.

Lemma good_wf s A : Inv s → shows s A → rwf A.
Proof. intros I H o [d a]. rewrite (sh_who _ _ H), (sh_nobj _ _ H). apply (i_num _ I). Qed.

Lemma total_meanwhile {R} Bo s A (k : st → outcome R) :
  Inv s → shows s A → rok A → good s → fits_t A →
  (∀ s1 A1, turned E Bo s s1 → Inv s1 → shows s1 A1 → rok A1 → good s1 → fits_t A1 → rgrow A A1 → k s1 ≠ NoFuel) →
  meanwhile E T Bo s k ≠ NoFuel.
Proof.
  intros I H K Hg Hf Hk. unfold meanwhile. destruct (performs E Bo _ s) as [s1|] eqn:Hp; [|done].
  destruct (performs_ok E Bo _ s s1 A I H Hp) as (T1 & A1 & R1 & H1).
  destruct (others_grow _ _ _ _ R1 (good_wf s A I H)) as [G1 E1].
  apply (Hk s1 A1); try done.
  - exact (prims_Inv E _ _ (tu_prims _ _ _ _ T1) I).
  - by eapply rgrow_rok.
  - eapply good_performs; [|exact Hg|exact Hp]. intros d. apply HT.
  - by eapply fits_t_grow.
Qed.

Lemma get_t_total n bld h o s A p rp :
  total_bt n bld → Inv s → shows s A → rok A → good s → fits_t A → eval B σ n o p = Some rp → get_t E T bld h o s ≠ NoFuel.
Proof.
  intros Ht I0 H0 K0 Hg0 Hf0 Hev. unfold get_t. destruct (promise o s) as [[d a]|] eqn:Hp0; [|done].
  destruct (how_legal E h); [|done]. eapply total_meanwhile; [done..|]. intros s1 A1 T1 I H K Hg Hf _.
  pose proof (turned_promise E _ _ _ _ _ _ T1 Hp0 (elem_of_list_here _ _)) as Hp.
  rewrite (lookup_art_ok _ o s1 d a I Hp). pose proof (live_cached s1 o d a I Hp) as Hc.
  destruct (artifacts (ch s1) !! a) as [e|] eqn:He; [done|]. cbn in Hc.
  pose proof (Ht o s1 d a A1 p rp I H K Hg Hf Hp Hc Hev) as X.
  destruct (bld o s1) as [[e|e] s2|k s2| |]; try done. by destruct (_ =? _)%N.
Qed.

Lemma exec_t_total n bld u du ua S v :
  sound_bt E bld → (∀ o s, good s → keeps_good (bld o s)) → total_bt n bld →
  ∀ p s A, pure_prog p → Inv s → shows s A → rok A → good s → fits_t A →
  stack s = u :: S → objs s !! u = Some (du, ua) → r_conf A u = Some v →
  ∀ p' q rp, alike p p' → eval_body (eval B σ n) v p' q = Some rp →
  exec_t E T bld u ua (bd_sty du) p s ≠ NoFuel.
Proof.
  intros Hbs Hbg Hbt p.
  induction p as [r| |h w k IH|k IH|v' p IH|k IH|v' k IH|d k IH|w p IH];
    intros s0 A0 Hpp I0 H0 K0 Hg0 Hf0 Hst0 Hu0 Hv0 p' q rp Ha Hev; cbn [exec_t]; try (by destruct Hpp);
    (eapply total_meanwhile; [done..|]; intros s A T1 I H K Hg Hf G0;
     assert (stack s = u :: S) as Hst by (by rewrite (tu_stack _ _ _ _ T1));
     assert (objs s !! u = Some (du, ua)) as Hu by (by apply (tu_objs _ _ _ _ T1));
     assert (r_conf A u = Some v) as Hv by (rewrite (rg_conf _ _ G0); [done|rewrite (sh_who _ _ H0); by eexists]);
     clear s0 A0 I0 H0 K0 Hg0 Hf0 Hst0 Hu0 Hv0 T1 G0); try done.
  - cbn in Hpp. inversion Ha as [| |? ? ? k' Hkk| |]; subst. cbn [eval_body] in Hev.
    destruct (eval B σ n w q) as [[y q']|] eqn:Hw; [|done].
    pose proof (resolve_t_sound E T bld u du ua S h w s A Hbs I H Hst Hu) as [S1 _].
    pose proof (good_resolve bld u ua h w s Hbg Hg) as [R1 _].
    assert (resolve_t E T bld u ua h w s ≠ NoFuel) as Hnf.
    { unfold resolve_t. destruct (promise w s) as [[d wa]|] eqn:Hp; [|done].
      destruct (shows_track E s A u S du ua w d wa I H Hst Hu Hp) as (c & -> & P1 & H1).
      set (s1 := log (EResolve u w) (set_ch c s)) in *. set (A1 := r_note _ _) in H1.
      assert (rgrow A A1) as G1 by (apply rgrow_ext; [done..|]; cbn; apply union_subseteq_r).
      pose proof (get_t_total n bld h w s1 A1 q (y, q') Hbt (prims_Inv E _ _ P1 I) H1 (rgrow_rok _ _ G1 eq_refl K) Hg (fits_t_grow _ _ Hf G1) Hw) as X.
      by destruct (get_t E T bld h w s1). }
    destruct (resolve_t E T bld u ua h w s) as [r s1|pk s1| |] eqn:Hr; try done.
    destruct (S1 _ _ eq_refl) as (G1 & Hst1 & A1 & Ht & H1). specialize (R1 _ _ eq_refl).
    set (A0 := r_note _ _) in Ht. assert (rgrow A A0) as G0 by (apply rgrow_ext; [done..|]; cbn; apply union_subseteq_r).
    set (A2 := r_note _ A1) in H1. destruct (good_rpure s1 A2 R1 H1) as [Hpu _].
    destruct (proj1 (all_fine _ _) _ _ _ _ _ _ Ht (good_wf s A I H) Hpu (rgrow_rok _ _ G0 eq_refl K)) as (K1 & GG & x & Hx & ->).
    assert (rgrow A1 A2) as G2 by (by apply rgrow_ext).
    assert (rgrow A A2) as G02 by (eapply rgrow_trans; [exact G0|]; eapply rgrow_trans; [exact GG|exact G2]).
    pose proof (fits_t_grow _ _ Hf G02) as Hf2.
    pose proof (fits_t_same s1 A2 n w (EvRet x) q y q' R1 H1 Hf2 (proj1 (rgrow_ev _ _ G2) _ _ Hx) Hw) as Hxy.
    destruct y as [y|]; [|done]. cbn in Hxy. injection Hxy as Hxy.
    eapply (IH (handed h x) s1 A2); [apply Hpp|apply G1|done|by apply (rgrow_rok A1)|done|done|done|by apply G1| |apply Hkk; by apply strip_handed|exact Hev].
    rewrite (rg_conf _ _ G02); [done|]. rewrite (sh_who _ _ H). by eexists.
  - cbn in Hpp. destruct (my_state_at E s u S du ua I Hst Hu) as (v' & -> & Hv' & _).
    assert (v' = v) as ->. { unfold r_conf in Hv. rewrite (sh_state _ _ H), Hv' in Hv. congruence. }
    inversion Ha as [| | |? k' Hkk|]; subst. cbn [eval_body] in Hev. by eapply (IH v s A).
  - cbn in Hpp. inversion Ha as [| | | |? x' ? k' Hxx Hkk]; subst. cbn [eval_body] in Hev.
    set (s1 := set_nbin _ s). pose proof (shows_newbin s A H) as H1. assert (rgrow A (r_newbin A)) as G1 by (by apply rgrow_ext).
    eapply (IH (Bin (nbin s) v') s1 (r_newbin A)); try done.
    + eapply (prim_Inv E); [apply (pm_newbin E)|done].
Qed.

Lemma build_t_total n : total_bt n (build_t E T n).
Proof.
  induction n as [|n IH]; intros o s d a A p rp I H K Hg Hf Hp Hc Hev; [done|]. cbn [build_t]. rewrite Hp. destruct d as [aty sty ini body].
  pose proof (cached_None s o _ a I Hp Hc) as Ha.
  unfold contains_artifact. rewrite Ha. rewrite bool_decide_eq_false_2 by (by intros [? ?]). rewrite andb_false_r.
  destruct (build_start E o s _ a A I H Hp Hc) as (c2 & Hst). cbn [bd_sty bd_init] in Hst.
  apply promise_Some in Hp as Hp'. destruct Hp' as [Hal Ho].
  destruct (r_addr_at s A o _ a H Ho) as (_ & Hdef & _).
  pose proof (sh_state _ _ H o) as Hrs.
  assert (state_of s o = None ∧ ini = None ∨ ∃ v, (state_of s o = Some v ∨ state_of s o = None ∧ ini = Some v) ∧
      ensure_dyn_state a o sty ini (make_known a o (ch s)) = (c2, inr v) ∧
      let s1 := log (ECall o) (set_reent (reent s || bool_decide (o ∈ stack s)) (set_stack (o :: stack s) (set_ch c2 s))) in
      rtc (Prims.prim E) s s1 ∧ Inv s1 ∧ shows s1 (r_note (ECall o) (r_put o v (r_meet o A)))) as [[Hn Hi]|(v & Hv & -> & P1 & I1 & H1)].
  { destruct (state_of s o) as [v|], ini as [v'|]; [right; done..|left; done]. }
  { subst ini. rewrite Hn in Hst. destruct Hst as [He _]. by rewrite He. }
  assert (r_state A !! o = Some v ∨ r_state A !! o = None ∧ bd_init (BDef aty sty ini body) = Some v) as Hv' by (by rewrite Hrs).
  cbn zeta. set (s1 := log _ _) in *. destruct (start_grow o v _ A Hdef Hv') as [G1 Hc1]. set (A1 := r_note _ _) in *.
  cbn [eval] in Hev. destruct (B o) as [d'|] eqn:HB; [|by destruct (σ o)].
  destruct (Hf o d' HB) as [Hd' Hs']. assert (d' = BDef aty sty ini body) as -> by congruence. rewrite <- Hs', Hc1 in Hev. cbn [bd_body] in Hev.
  assert (Q (BDef aty sty ini body)) as HQb by (by eapply Hg).
  assert (exec_t E T (build_t E T n) o a sty body s1 ≠ NoFuel) as Hx.
  { eapply (exec_t_total n (build_t E T n) o (BDef aty sty ini body) a (stack s) v (build_t_sound E T n) (good_build n) IH body s1 A1); try done.
    - by apply (HQ _ HQb).
    - by apply (rgrow_rok A).
    - by apply (fits_t_grow A).
    - rewrite (rg_conf _ _ G1); [done|]. by eapply def_who.
    - by apply (HO _ HQb). }
  destruct (exec_t E T (build_t E T n) o a sty body s1) as [[b|e] s2|k s2| |]; try done.
  cbn [artifacts set_artifacts]. by rewrite lookup_insert.
Qed.
End TransTotal.
