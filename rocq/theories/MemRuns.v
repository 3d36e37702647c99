(** Lemmas behind Props28.v: running builders, calls and histories on the memory. *)
From Verif Require Export MemFacts.
From Verif Require Import RcFacts Memory.
From stdpp Require Import relations.

Section MemRuns.
Context (E : env) (fields : bdef → gset obj) (keep : prog → gset obj → gset obj) (pk : ptrkind) (Hpk : pk ≠ PBox).
Notation prim := (prim E).
Notation prims := (rtc prim).
Notation locals := (locals keep).
Notation owns := (owns E fields keep).
Notation fair := (fair E fields keep).
Notation exec_o := (exec_o E fields keep).
Notation build_o := (build_o E fields keep).
Notation step_o := (step_o E fields keep).
Notation may := (may E fields keep).
Notation oruns := (oruns E fields keep).
Notation r_part := (r_part fields).
Notation firm := (firm fields).
Notation borne := (borne fields).
Notation all_borne := (all_borne fields).
Notation all_fair := (all_fair E fields keep).
Notation settled_down := (settled_down fields).
Notation sound_bo := (sound_bo E fields keep).
Notation reach := (reach fields).
Notation sim := (sim fields pk).

Lemma reach_in W A o : o ∈ W → reach W A o.
Proof. intros H. exists o. split; [by left|apply rtc_refl]. Qed.
Lemma reach_st W A o : r_stored A o → reach W A o.
Proof. intros H. exists o. split; [by right|apply rtc_refl]. Qed.
Lemma reach_borne W A o : borne W A o → reach W A o.
Proof. intros (x & Hx & Hp). exists x. split; [by left|done]. Qed.
Lemma reach_part W A o o' : reach W A o → r_part A o o' → reach W A o'.
Proof. intros (x & Hx & Hp) H. exists x. split; [done|]. by eapply rtc_r. Qed.

(** Nothing is added. *)
Lemma sim_less W A W' A' :
  r_nobj A' = r_nobj A → r_who A' = r_who A → W' ⊆ W → (∀ o, r_stored A' o → r_stored A o) → r_known A' ⊆ r_known A → sim W A W' A'.
Proof using Hpk.
  intros En Ew HW HS HK. apply sim_adj; try done.
  - intros o Ho. by apply reach_in, HW.
  - intros o Ho. by apply reach_st, HS.
  - intros o Ho. left. by apply HK.
Qed.
Lemma sim_same W A A' :
  r_nobj A' = r_nobj A → r_who A' = r_who A → r_art A' = r_art A → r_state A' = r_state A → r_known A' = r_known A → sim W A W A'.
Proof using Hpk. intros H1 H2 H3 H4 H5. apply sim_less; try done; [|by rewrite H5]. intros o. unfold r_stored. by rewrite H3, H4. Qed.
Lemma sim_refl W A : sim W A W A.
Proof using Hpk. by apply sim_same. Qed.
(** More is held. *)
Lemma sim_hold W A W' : (∀ o, o ∈ W' → reach W A o) → sim W A W' A.
Proof using Hpk. intros H. apply sim_adj; try done; [intros o; apply reach_st|intros o; by left]. Qed.
Lemma sim_meet W A o : reach W A o → sim W A W (r_meet o A).
Proof using Hpk.
  intros H. apply sim_adj; try done; [intros x; apply reach_in|intros x Hx; exact (reach_st W A x Hx)|].
  intros x Hx. cbn in Hx. apply elem_of_union in Hx as [->%elem_of_singleton|Hx]; [by right|by left].
Qed.
Lemma stored_put A o v x : r_stored (r_put o v A) x → x ∈ mentions v ∨ r_stored A x.
Proof.
  intros [(y & b & Hy & Hx)|(y & b & Hy & Hx)]; [right; left; eauto|]. cbn in Hy.
  destruct (decide (y = o)) as [->|Hne]; [rewrite lookup_insert in Hy; injection Hy as <-; by left|].
  rewrite lookup_insert_ne in Hy by done. right. right. eauto.
Qed.
Lemma stored_store A o b x : r_stored (r_store o b A) x → x ∈ mentions (bin_val b) ∨ r_stored A x.
Proof.
  intros [(y & b' & Hy & Hx)|(y & b' & Hy & Hx)]; [|right; right; eauto]. cbn in Hy.
  destruct (decide (y = o)) as [->|Hne]; [rewrite lookup_insert in Hy; injection Hy as <-; by left|].
  rewrite lookup_insert_ne in Hy by done. right. left. eauto.
Qed.
Lemma sim_put W A o v : (∀ x, x ∈ mentions v → reach W A x) → sim W A W (r_put o v A).
Proof using Hpk.
  intros H. apply sim_adj; try done; [intros x; apply reach_in| |intros x; by left].
  intros x [Hx|Hx]%stored_put; [by apply H|by apply reach_st].
Qed.
Lemma sim_store W A o b : (∀ x, x ∈ mentions (bin_val b) → reach W A x) → sim W A W (r_store o b A).
Proof using Hpk.
  intros H. apply sim_adj; try done; [intros x; apply reach_in| |intros x; by left].
  intros x [Hx|Hx]%stored_store; [by apply H|by apply reach_st].
Qed.
Lemma sim_write W A U o f : U ⊆ W → (∀ v, mentions (f v) ⊆ U ∪ mentions v) → sim W A W (r_write o f A).
Proof using Hpk.
  intros HU Hf. apply sim_adj; try done; [intros x; apply reach_in| |intros x; by left].
  intros x [(y & b & Hy & Hx)|(y & b & Hy & Hx)]; [|apply reach_st; right; eauto]. cbn in Hy.
  apply lookup_alter_Some in Hy as [(-> & b' & Hb & ->)|[Hne Hy]]; [|apply reach_st; left; eauto].
  cbn in Hx. apply Hf in Hx as [Hx|Hx]%elem_of_union; [by apply reach_in, HU|]. apply reach_st. left. eauto.
Qed.
Lemma sim_kept W A W' A' : W' ⊆ W → kept_by A A' → r_nobj A' = r_nobj A → sim W A W' A'.
Proof using Hpk.
  intros HW [K1 K2 K3 K4 K5 K6 K7] Hn. apply sim_less; try done; [|by rewrite K4]. intros o. unfold r_stored. by rewrite K1, K2.
Qed.
Lemma sim_forget W A F : sim W A W (r_forget F A).
Proof using Hpk.
  apply sim_less; try done. intros o [(x & b & Hx & Ho)|(x & b & Hx & Ho)]; [left|right]; exists x, b; (split; [|done]); [|done].
  by eapply lookup_weaken; [exact Hx|apply forget_art].
Qed.
Lemma sim_unknow W A F : sim W A W (r_unknow F A).
Proof using Hpk.
  apply sim_less; try done; [|cbn; set_solver]. intros o [(x & b & Hx & Ho)|(x & b & Hx & Ho)]; [left|right]; exists x, b; (split; [|done]); [done|].
  eapply lookup_weaken; [exact Hx|]. cbn. apply map_filter_subseteq.
Qed.
Lemma sim_note W A e : sim W A W (r_note e A).
Proof using Hpk. by apply sim_same. Qed.
Lemma sim_tock W A : sim W A W (r_tock A).
Proof using Hpk. by apply sim_same. Qed.
Lemma sim_spoil W A o : sim W A W (r_spoil o A).
Proof using Hpk. by apply sim_same. Qed.
Lemma sim_prepare W A o : sim W A W (r_prepare o A).
Proof using Hpk. unfold r_prepare. destruct (decide _); [apply sim_forget|apply sim_refl]. Qed.

(** The settled state. *)
Lemma settled_nobj W s s' : settled_down W s = Some s' → nobj s' = nobj s.
Proof.
  unfold Owned.settled_down. generalize (size (alive s)) as k. intros k. revert s. induction k as [|k IH]; intros s; cbn [settle]; [by intros [= <-]|].
  destruct (unheld _ _ _) as [|w' ?]; [by intros [= <-]|]. destruct (drop_obj w' s) as [sx|] eqn:Hd; [|done].
  apply drop_Some in Hd as (_ & _ & ->). intros ->%IH. done.
Qed.
Lemma sim_settle W0 W s s' A A' :
  W ⊆ W0 → shows s A → shows s' A' → kept_by A A' → settled_down W s = Some s' → sim W0 A W A'.
Proof using Hpk.
  intros HW H H' K Hs. apply sim_kept; [done..|]. rewrite (sh_nobj _ _ H), (sh_nobj _ _ H'). by eapply settled_nobj.
Qed.

(** ** Building *)
Definition sim_out {T} (W : gset obj) (A : ref) (f : T → gset obj) (B : gset obj) (z : outcome T) : Prop :=
  match z with
  | Done r s' => ∀ A', shows s' A' → sim W A (B ∪ f r) A'
  | Panic k s' => ∀ A', shows s' A' → sim W A B A'
  | NoFuel | Illegal => True
  end.
Definition sim_bo (bld : gset obj → obj → st → outcome bres) : Prop :=
  ∀ B o s d a A, Inv s → shows s A → firm B A → all_fair A → all_borne B A (stack s) → borne B A o →
  promise o s = Some (d, a) → cached s o = None → sim_out B A mentions_b B (bld B o s).

Lemma sim_out_l {T} W1 A1 W A (f : T → gset obj) B z : sim W1 A1 W A → sim_out W A f B z → sim_out W1 A1 f B z.
Proof. intros H. destruct z; cbn; try done; intros X A' HA'; (eapply sim_trans; [exact H|by apply X]). Qed.

Lemma get_o_sim bld B h o s A :
  sound_bo bld → sim_bo bld → Inv s → shows s A → firm B A → all_fair A → all_borne B A (stack s) → borne B A o → how_legal E h = true →
  sim_out B A mentions_rv B (get_o E (bld B) h o s).
Proof using Hpk.
  intros Hb Hsim I H Hf Hg Hst Ho Hh. pose proof (borne_live _ _ _ _ Hf Ho) as Hl.
  destruct (firm_live_who s A o I H Hl) as (d & a & Hp).
  unfold get_o, get_with. rewrite Hp, Hh. rewrite (lookup_art_ok _ o s d a I Hp).
  pose proof (live_cached s o d a I Hp) as Hc. pose proof (sh_art _ _ H o) as Hra.
  destruct (artifacts (ch s) !! a) as [e|] eqn:He; cbn in Hc.
  - intros A' HA'. rewrite <- (shows_unique _ _ _ H HA'). rewrite conv_mentions. apply sim_hold.
    intros x [Hx|Hx]%elem_of_union; [by apply reach_in|]. apply reach_st. left. exists o, (ar_bin e). split; [congruence|done].
  - pose proof (Hb B o s d a A I H Hf Hg Hst Ho Hp Hc) as X. pose proof (Hsim B o s d a A I H Hf Hg Hst Ho Hp Hc) as Y.
    destruct (bld B o s) as [[e|e] s2|p s2| |]; try done.
    destruct X as (_ & _ & _ & Hty & _). rewrite (Hty e eq_refl), N.eqb_refl. intros A' HA'. rewrite conv_mentions. exact (Y A' HA').
Qed.
Lemma resolve_o_sim bld B u du ua S h w s A :
  sound_bo bld → sim_bo bld → Inv s → shows s A → firm B A → all_fair A → stack s = u :: S → all_borne B A (u :: S) → borne B A w →
  objs s !! u = Some (du, ua) → how_legal E h = true →
  sim_out B A mentions_rv B (resolve_o E (bld B) u ua h w s).
Proof using Hpk.
  intros Hb Hsim I H Hf Hg Hst HS Hw Hu Hh. destruct (firm_live_who s A w I H (borne_live _ _ _ _ Hf Hw)) as (d & wa & Hp).
  unfold resolve_o, resolve_with. rewrite Hp.
  destruct (shows_track E s A u S du ua w d wa I H Hst Hu Hp) as (c & -> & P1 & H1).
  pose proof (prims_grows E _ _ I P1) as G0. pose proof (proj1 G0) as I1. set (s1 := log (EResolve u w) (set_ch c s)) in *.
  set (A0 := r_note (EResolve u w) (r_use u w (r_meet w A))) in *.
  assert (stack s1 = u :: S) as Hst1 by exact Hst.
  assert (sim B A B A0) as S0 by (eapply sim_trans; [apply (sim_meet B A w), reach_borne, Hw|by apply sim_same]).
  assert (firm B A0) as Hf0 by (by apply firm_note, firm_use, firm_meet).
  pose proof (get_o_sound E fields keep bld B h w s1 A0 Hb I1 H1) as X. pose proof (get_o_sim bld B h w s1 A0 Hb Hsim I1 H1) as Y. rewrite Hst1 in X, Y.
  unfold get_o in X, Y. specialize (X Hf0 Hg HS Hw Hh). specialize (Y Hf0 Hg HS Hw Hh).
  destruct (get_with E (bld B) h w s1) as [r s2|k s2| |]; try done.
  - destruct X as (_ & _ & A1 & _ & H2 & _). intros A' HA'. pose proof (shows_unique _ _ _ HA' (shows_log _ _ _ H2)) as ->.
    eapply sim_trans; [exact S0|]. eapply sim_trans; [exact (Y A1 H2)|apply sim_note].
  - intros A' HA'. eapply sim_trans; [exact S0|exact (Y A' HA')].
Qed.

Lemma run_o_sim bld u du ua S B :
  sound_bo bld → sim_bo bld → ∀ p L s A, Inv s → shows s A → firm (B ∪ L) A → all_fair A → stack s = u :: S → all_borne B A (u :: S) →
  objs s !! u = Some (du, ua) → owns (fields du) L p →
  sim_out (B ∪ L) A mentions_res B (exec_o bld u ua (bd_sty du) B L p s).
Proof using Hpk.
  intros Hb Hsim p.
  induction p as [r| |h w k IH|k IH|v p IH|k IH|v k IH|d k IH|w p IH]; intros L0 s0 A0 I0 H0 Hf0 Hg0 Hst0 HS0 Hu0 Ho;
    cbn [Owned.exec_o]; cbn zeta;
    match goal with |- context [locals ?x L0] => set (q := x) in *; pose proof (locals_sub keep q L0) as HL; set (L := locals q L0) in * end;
    (destruct (settled_ok E fields (B ∪ L) s0 A0 (u :: S) I0 H0 Hst0) as (s & A & Hse & T1 & R1 & H & Hf & K & _);
      [eapply firm_sub; [exact Hf0|set_solver]|eapply all_borne_mono; [|done|exact HS0]; set_solver|]);
    pose proof (sim_settle (B ∪ L0) (B ∪ L) s0 s A0 A ltac:(clear - HL; set_solver) H0 H K Hse) as S0; rewrite Hse;
    (eapply (sim_out_l _ _ _ _ _ _ _ S0));
    pose proof (prims_Inv E _ _ (tu_prims _ _ _ _ T1) I0) as I;
    assert (stack s = u :: S) as Hst by (by rewrite (tu_stack _ _ _ _ T1));
    pose proof (tu_objs _ _ _ _ T1 _ _ Hu0) as Hu;
    assert (all_fair A) as Hg by (unfold OwnedFacts.all_fair; rewrite (kb_who _ _ K); exact Hg0);
    assert (all_borne B A (u :: S)) as HS by (eapply all_borne_mono; [done| |exact HS0]; by rewrite (kb_who _ _ K));
    (assert (∀ w, w ∈ fields du ∪ L → borne (B ∪ L) A w ∧ w ∈ r_live A) as HM;
    [(intros w' Hw'; assert (borne (B ∪ L) A w') as Hbw; [|split; [done|by eapply borne_live]];
      apply elem_of_union in Hw' as [Hw'|Hw']; [|exists w'; split; [set_solver|apply rtc_refl]];
      destruct (HS u ltac:(left)) as (x & Hx & Hp); exists x; split; [set_solver|]; eapply rtc_r; [exact Hp|]; exists du, ua; split; [|done];
      by rewrite (sh_who _ _ H))|]);
    cbn [Owned.owns] in Ho; cbn zeta in Ho; fold q in Ho; fold L in Ho;
    clear K T1 Hf0 Hg0 HS0 Hu0 H0 Hst0 I0 R1 S0.
  - intros A' HA'. rewrite <- (shows_unique _ _ _ H HA'). apply sim_hold.
    intros x [Hx|Hx]%elem_of_union; [apply reach_in; set_solver|]. by apply reach_borne, HM, Ho.
  - intros A' HA'. rewrite <- (shows_unique _ _ _ H HA'). apply sim_hold. intros x Hx. apply reach_in. set_solver.
  - destruct Ho as (Hw & Hh & Ho). destruct (HM w Hw) as [Hbw _].
    assert (all_borne (B ∪ L) A (u :: S)) as HS' by (eapply all_borne_mono; [|done|exact HS]; set_solver).
    pose proof (resolve_o_sound E fields keep bld (B ∪ L) u du ua S h w s A Hb I H Hf Hg Hst HS' Hbw Hu Hh) as X.
    pose proof (resolve_o_sim bld (B ∪ L) u du ua S h w s A Hb Hsim I H Hf Hg Hst HS' Hbw Hu Hh) as Y.
    cbn zeta in X. destruct (resolve_o E (bld (B ∪ L)) u ua h w s) as [r s1|p1 s1| |]; try done.
    + destruct X as (G1 & Hst1 & A1 & Hr1 & H1 & Hf1 & Hg1). specialize (Y _ H1).
      eapply sim_out_l; [|apply (IH r (L ∪ mentions_rv r) s1 _ (proj1 G1) H1)]; try done.
      * by rewrite (assoc_L (∪)).
      * rewrite (assoc_L (∪)). exact Hf1.
      * eapply all_borne_mono; [done| |exact HS]. exact (grows_who s s1 A _ G1 H H1).
      * by apply G1.
    + intros A' HA'. eapply sim_trans; [exact (Y A' HA')|]. apply sim_hold. intros x Hx. apply reach_in. set_solver.
  - destruct (my_state_at E s u S du ua I Hst Hu) as (v & -> & Hv & _).
    assert (r_state A !! u = Some v) as Hv' by (by rewrite (sh_state _ _ H)).
    eapply sim_out_l; [|apply (IH v (L ∪ mentions v) s A I H)]; try done.
    + rewrite (assoc_L (∪)). apply sim_hold. intros x [Hx|Hx]%elem_of_union; [by apply reach_in|]. apply reach_st. right. eauto.
    + rewrite (assoc_L (∪)). apply firm_more; [done|]. intros w Hw. apply (fm_stored _ _ _ Hf). right. eauto.
  - destruct Ho as [Hv Ho]. destruct (my_state_at E s u S du ua I Hst Hu) as (v' & -> & _ & Hk & Hd).
    set (s1 := set_ch _ s). assert (prim s s1) as P1 by (eapply pm_set; eauto). pose proof (prims_grows E _ _ I (rtc_once _ _ P1)) as G1.
    assert (shows s1 (r_put u v A)) as H1 by (by eapply shows_put).
    eapply sim_out_l; [|apply (IH L s1 (r_put u v A) (proj1 G1) H1)]; try done.
    + apply sim_put. intros x Hx. by apply reach_borne, HM, Hv.
    + apply firm_put; [done|]. intros w Hw. by apply HM, Hv.
  - assert (prim s (tock s)) as P1 by constructor. rewrite <- (sh_tick _ _ H). pose proof (prims_grows E _ _ I (rtc_once _ _ P1)) as G1.
    eapply sim_out_l; [apply sim_tock|apply (IH (e_ask E (r_tick A)) L (tock s) (r_tock A) (proj1 G1) (shows_tock _ _ H)); try done; by apply firm_tock].
  - assert (prim s (set_nbin (N.succ (nbin s)) s)) as P1 by constructor. pose proof (prims_grows E _ _ I (rtc_once _ _ P1)) as G1.
    eapply (sim_out_l _ _ (B ∪ L) (r_newbin A)); [by apply sim_same|].
    apply (IH (Bin (nbin s) v) L _ _ (proj1 G1) (shows_newbin s A H)); try done. by apply firm_newbin.
  - pose proof (alloc_iff E s A d I H) as Ha. destruct (alloc E d s) as [[o s1]|] eqn:Hal; [|done].
    destruct Ha as (Hfr & -> & H1). assert (prim s s1) as P1 by (eapply pm_alloc; exact Hal).
    assert (stack s1 = stack s) as Hst1 by (by apply alloc_Some in Hal as (_ & -> & _)). pose proof (prims_grows E _ _ I (rtc_once _ _ P1)) as G1.
    assert (fields d ⊆ fields du ∪ L ∧ fair d ∧ ∀ o, owns (fields du) (L ∪ {[o]}) (k o)) as (Hd & Hfd & Hok).
    { destruct d as [aty sty ini body]. destruct Ho as ((Ho1 & Ho2 & Ho3) & Ho4). split; [exact Ho1|]. split; [split; [exact Ho2|exact Ho3]|exact Ho4]. }
    eapply sim_out_l; [|apply (IH (r_nobj A) (L ∪ {[r_nobj A]}) s1 _ (proj1 G1) H1)]; try done.
    + rewrite (assoc_L (∪)). apply sim_alloc; [done..|]. intros x Hx. by apply reach_borne, HM, Hd.
    + rewrite (assoc_L (∪)). eapply (firm_alloc _ _ s A); [done..|intros w Hw; by apply HM|exact Hd].
    + eapply (fair_alloc _ _ _ s A); [done..|intros w Hw; by apply HM|exact Hd|done].
    + by rewrite Hst1.
    + eapply all_borne_mono; [done| |exact HS]. exact (grows_who s s1 A _ G1 H H1).
    + by apply G1.
  - done.
Qed.

Lemma build_o_sim n : sim_bo (build_o n).
Proof using Hpk.
  induction n as [|n IHn]; intros B o s d a A I H Hf Hg HS Hbo Hp Hc; cbn [Owned.build_o]; [done|].
  rewrite Hp. pose proof (promise_Some o s d a) as [Hp' _]. destruct (Hp' Hp) as [Hal Ho]. clear Hp'.
  assert (r_who A !! o = Some (d, a)) as Hwho by (by rewrite (sh_who _ _ H)).
  assert (o ∈ r_live A) as Hl by (by rewrite (sh_live _ _ H)).
  destruct (Hg o d a Hwho) as [[Hfi Hfb] _].
  assert (∀ v w, r_state A !! o = Some v ∨ r_state A !! o = None ∧ bd_init d = Some v → w ∈ mentions v → reach B A w) as Hvr.
  { intros v w [Hv|[_ Hv]] Hw; [apply reach_st; right; eauto|]. apply (reach_part B A o); [by apply reach_borne|]. exists d, a. split; [done|].
    apply Hfi. by rewrite Hv. }
  destruct d as [aty sty ini body].
  pose proof (cached_None s o _ a I Hp Hc) as Ha.
  unfold contains_artifact. rewrite Ha. rewrite bool_decide_eq_false_2 by (by intros [? ?]). rewrite andb_false_r.
  destruct (build_start E o s _ a A I H Hp Hc) as (c2 & Hst). cbn [bd_sty bd_init] in Hst.
  pose proof (sh_state _ _ H o) as Hrs.
  assert (state_of s o = None ∧ ini = None ∨ ∃ v, (state_of s o = Some v ∨ state_of s o = None ∧ ini = Some v) ∧
      ensure_dyn_state a o sty ini (make_known a o (ch s)) = (c2, inr v) ∧
      let s1 := log (ECall o) (set_reent (reent s || bool_decide (o ∈ stack s)) (set_stack (o :: stack s) (set_ch c2 s))) in
      prims s s1 ∧ Inv s1 ∧ shows s1 (r_note (ECall o) (r_put o v (r_meet o A)))) as [[Hn Hi]|(v & Hv & -> & P1 & I1 & H1)].
  { destruct (state_of s o) as [v|], ini as [v'|]; [right; done..|left; done]. }
  - subst ini. rewrite Hn in Hst. destruct Hst as [He H1]. rewrite He. intros A' HA'. rewrite <- (shows_unique _ _ _ H1 HA').
    by apply sim_meet, reach_borne.
  - assert (r_state A !! o = Some v ∨ r_state A !! o = None ∧ bd_init (BDef aty sty ini body) = Some v) as Hv' by (by rewrite Hrs).
    pose proof (prims_grows E _ _ I P1) as G1. cbn zeta. set (s1 := log _ _) in *. set (A1 := r_note _ _) in *.
    assert (sim B A (B ∪ ∅) A1) as S1.
    { rewrite (right_id_L ∅ (∪)). eapply sim_trans; [apply (sim_meet B A o), reach_borne, Hbo|].
      eapply sim_trans; [apply (sim_put B (r_meet o A) o v)|apply sim_note]. intros x Hx. exact (Hvr v x Hv' Hx). }
    assert (firm (B ∪ ∅) A1) as Hf1.
    { rewrite (right_id_L ∅ (∪)). apply (firm_note _ B (ECall o)), firm_put; [by apply firm_meet|]. intros w Hw.
      change (r_live (r_meet o A)) with (r_live A). eapply reach_live; [exact Hf|]. by eapply Hvr. }
    assert (all_borne B A1 (o :: stack s)) as HS1 by (intros w [->|Hw]%elem_of_cons; [exact Hbo|by apply HS]).
    pose proof (run_o_sound E fields keep (build_o n) o (BDef aty sty ini body) a (stack s) B (build_o_sound E fields keep n) body ∅ s1 A1 I1 H1 Hf1 Hg eq_refl HS1 Ho Hfb) as X.
    pose proof (run_o_sim (build_o n) o (BDef aty sty ini body) a (stack s) B (build_o_sound E fields keep n) IHn body ∅ s1 A1 I1 H1 Hf1 Hg eq_refl HS1 Ho Hfb) as Y.
    cbn [bd_sty] in X, Y. apply (sim_out_l _ _ _ _ _ _ _ S1) in Y.
    destruct (exec_o (build_o n) o a sty B ∅ body s1) as [[b|e] s2|k s2| |] eqn:Hx; try done.
    + destruct X as ([I2 G2] & Hst2 & A2 & _ & Z & F2 & Q2).
      assert (objs s2 !! o = Some (BDef aty sty ini body, a)) as Ho2 by (by apply G2).
      destruct (my_state_at E s2 o (stack s) _ a I2 Hst2 Ho2) as (_ & _ & _ & Hk2 & _).
      cbn [artifacts set_artifacts]. rewrite lookup_insert. intros A' HA'.
      assert (A' = r_note (EBuilt o b) (r_store o b A2)) as ->.
      { apply (shows_unique _ _ _ HA'). apply shows_stack, shows_log. exact (shows_store s2 A2 o _ a aty b I2 Z Ho2 Hk2). }
      eapply sim_trans; [exact (Y A2 Z)|]. cbn [mentions_b built_res mentions_res].
      eapply sim_trans; [apply (sim_store _ A2 o b)|apply sim_note]. intros x Hxx. apply reach_in. by apply elem_of_union_r.
    + destruct X as ([I2 G2] & Hst2 & A2 & _ & Z & F2 & Q2). intros A' HA'.
      assert (A' = r_note (EFailed o e) A2) as -> by (apply (shows_unique _ _ _ HA'); by apply shows_stack, shows_log).
      eapply sim_trans; [exact (Y A2 Z)|apply sim_note].
Qed.

(** ** Calls *)
Lemma sim_hold_l U M A A' : (∀ x, x ∈ M → reach U A x) → sim (U ∪ M) A (U ∪ M) A' → sim U A (U ∪ M) A'.
Proof using Hpk.
  intros H S. eapply sim_trans; [|exact S]. apply sim_hold. intros x [Hx|Hx]%elem_of_union; [by apply reach_in|by apply H].
Qed.
Lemma sim_none U A A' : sim U A U A' → sim U A (U ∪ ∅) A'.
Proof. by rewrite (right_id_L ∅ (∪)). Qed.

Lemma simple_sim U x s A y A' :
  Inv s → shows s A → firm U A → all_fair A → may U x → (∀ h o, x ≠ OGet h o) → (∀ o f, x ≠ OGetMut o f) →
  rcall (e_ask E) (e_kind E) x A y A' → sim U A (U ∪ mentions_ans y) A'.
Proof using Hpk.
  intros I H Hf Hg Hm Hx1 Hx2 Hc.
  assert (∀ o b, r_art A !! o = Some b → ∀ w, w ∈ mentions (bin_val b) → reach U A w) as Hart.
  { intros o b Hb w Hw. apply reach_st. left. eauto. }
  assert (∀ o v, r_state A !! o = Some v → ∀ w, w ∈ mentions v → reach U A w) as Hsta.
  { intros o b Hb w Hw. apply reach_st. right. eauto. }
  assert (∀ o d v, o ∈ U → r_def A o = Some d → bd_init d = Some v → ∀ w, w ∈ mentions v → reach U A w) as Hini.
  { intros o d v Ho Hd Hi w Hw. unfold r_def in Hd. destruct (r_who A !! o) as [[d' a]|] eqn:Hwho; [|done]. cbn in Hd. injection Hd as ->.
    apply (reach_part U A o); [by apply reach_in|]. exists d, a. split; [done|]. apply (fair_init _ _ _ o d a A w Hg Hwho). by rewrite Hi. }
  assert (∀ w, w ∈ (∅ : gset obj) → reach U A w) as Hnone by (intros w Hw; by apply elem_of_empty in Hw).
  inversion Hc; subst; cbn [mentions_ans mentions_out mentions_opt]; cbn [Owned.may] in Hm;
    try (exfalso; exact Hm); try (exfalso; eapply Hx1; reflexivity); try (exfalso; eapply Hx2; reflexivity).
  - destruct Hm as [Hd Hfd]. apply sim_alloc; [done..|]. intros o Ho. by apply reach_in, Hd.
  - apply sim_hold_l; [|apply sim_refl]. destruct (r_art A' !! o) as [b|] eqn:Hb; [|done]. cbn. rewrite conv_mentions. by eapply Hart.
  - apply sim_none, sim_refl.
  - destruct Hm as (Ho & _ & Hfm). apply sim_hold_l.
    + intros w Hw. destruct (r_art (r_prepare o A) !! o) as [b|] eqn:Hb; [|by apply Hnone]. apply prepare_art in Hb. by eapply Hart.
    + eapply sim_trans; [apply sim_prepare|]. eapply sim_trans; [eapply (sim_write _ _ U)|]; [apply union_subseteq_l|exact Hfm|]. eapply sim_trans; [apply sim_spoil|apply sim_tock].
  - apply sim_hold_l; [|apply sim_refl]. destruct (r_state A' !! o) as [v|] eqn:Hv; [|done]. by eapply Hsta.
  - apply sim_hold_l; [|apply sim_refl]. by eapply Hsta.
  - apply sim_hold_l; [by eapply Hini|]. eapply sim_trans; [apply sim_meet, reach_in; by apply elem_of_union_l|]. apply sim_put. intros x Hx. apply reach_in. by apply elem_of_union_r.
  - apply sim_none. by apply sim_meet, reach_in.
  - destruct Hm as [Ho Hfm].
    assert (∀ w, w ∈ mentions v → reach U A w) as Hv.
    { match goal with HH : _ ∨ _ |- _ => destruct HH as [HH|[_ HH]] end; [by eapply Hsta|by eapply Hini]. }
    apply sim_hold_l; [exact Hv|]. eapply sim_trans; [apply sim_forget|]. eapply sim_trans; [apply sim_tock|]. eapply sim_trans; [apply (sim_note _ _ (EInvalidate o))|].
    eapply sim_trans; [apply (sim_meet _ _ o), reach_in; by apply elem_of_union_l|]. apply sim_put. intros x Hx. apply reach_in. by apply Hfm.
  - apply sim_none. eapply sim_trans; [apply sim_forget|]. eapply sim_trans; [apply sim_tock|]. eapply sim_trans; [apply (sim_note _ _ (EInvalidate o))|].
    apply sim_meet, reach_in, Hm.
  - apply sim_none. eapply sim_trans; [apply sim_forget|]. eapply sim_trans; [apply sim_spoil|]. eapply sim_trans; [apply sim_tock|]. apply sim_note.
  - apply sim_none. eapply sim_trans; [apply sim_forget|]. eapply sim_trans; [apply sim_unknow|]. eapply sim_trans; [apply sim_spoil|]. eapply sim_trans; [apply sim_tock|]. apply sim_note.
  - apply sim_none, sim_less; try done. intros o [(z & b & Hz & _)|Hz]; [cbn in Hz; by rewrite lookup_empty in Hz|by right].
  - apply sim_none, sim_less; try done. intros o [(z & b & Hz & _)|(z & b & Hz & _)]; cbn in Hz; by rewrite lookup_empty in Hz.
  - apply sim_none. eapply sim_trans; [apply sim_forget|]. eapply sim_trans; [apply sim_unknow|]. apply sim_tock.
  - apply sim_none, sim_tock.
  - apply sim_none, sim_refl.
  - apply sim_none, sim_refl.
Qed.

Definition sim_call (U : gset obj) (A : ref) (z : outcome out) : Prop :=
  match z with
  | Done r s' => ∀ A', shows s' A' → sim U A (U ∪ mentions_out r) A'
  | Panic k s' => k ≠ PkCounterpart → ∀ A', shows s' A' → sim U A U A'
  | NoFuel | Illegal => True
  end.
Lemma get_mut_o_sim U o f A s n :
  Inv s → stack s = [] → shows s A → firm U A → all_fair A → may U (OGetMut o f) →
  sim_call U A (get_mut_o E fields keep n U o f s).
Proof using Hpk.
  intros I Hst H Hf Hg (HoU & Hkd & Hfm). unfold get_mut_o. rewrite Hkd.
  assert (o ∈ r_live A) as Hl by (by apply (fm_held _ _ _ Hf)).
  destruct (firm_live_who s A o I H Hl) as (d & a & Hp). rewrite Hp.
  destruct (used_dec A o) as [(u & Hu & Hud)|Hno].
  { destruct (lookup_mut_panics E s A o d a u I H Hp Hu Hud) as (c & Hc). rewrite Hc. unfold op_get_mut. rewrite Hkd, Hp, Hc. intros Hk. by destruct (Hk eq_refl). }
  destruct (lookup_mut_shows E s A o d a I Hst H Hp Hno) as (c & Hlm & I1 & H1). rewrite Hlm.
  destruct (r_art (r_prepare o A) !! o) as [b|] eqn:Hb.
  { destruct (get_mut_at E s A o d a f I Hst H Hp Hkd Hno) as (s1 & _ & _ & _ & _ & X). rewrite Hb in X. destruct X as (s2 & Hs2 & H2).
    specialize (Hs2 n). cbn [step] in Hs2. rewrite Hs2. intros A' HA'. rewrite (shows_unique _ _ _ HA' H2). cbn [mentions_out mentions_rv].
    apply sim_hold_l; [intros w Hw; apply reach_st; left; exists o, b; split; [by apply prepare_art|exact Hw]|].
    eapply sim_trans; [apply (sim_prepare _ _ o)|]. eapply sim_trans; [apply (sim_write _ _ U o f)|]; [apply union_subseteq_l|exact Hfm|]. eapply sim_trans; apply sim_tock. }
  set (s1 := tock (set_ch c s)) in *. assert (cached s1 o = None) as Hc by (rewrite <- (sh_art _ _ H1); exact Hb).
  set (A1 := r_tock (r_spoil o (r_prepare o A))) in *.
  assert (sim U A U A1) as S1 by (eapply sim_trans; [apply (sim_prepare _ _ o)|]; eapply sim_trans; [apply (sim_spoil _ _ o)|apply sim_tock]).
  assert (firm U A1) as Hf1 by (by apply firm_tock, firm_spoil, firm_prepare).
  assert (all_borne U A1 (stack s1)) as Hbb by (change (stack s1) with (stack s); rewrite Hst; intros ? ?%elem_of_nil; done).
  assert (borne U A1 o) as Hbo by (exists o; split; [done|apply rtc_refl]).
  pose proof (build_o_sound E fields keep n U o s1 d a A1 I1 H1 Hf1 (prepare_fair _ _ _ o A Hg) Hbb Hbo Hp Hc) as X.
  pose proof (build_o_sim n U o s1 d a A1 I1 H1 Hf1 (prepare_fair _ _ _ o A Hg) Hbb Hbo Hp Hc) as Y.
  apply (sim_out_l _ _ _ _ _ _ _ S1) in Y.
  destruct (build_o n U o s1) as [[e|e] s2|k s2| |] eqn:Hbd; try done.
  - destruct X as ([I2 _] & Hst2 & Hp2 & Hty & A' & Hr & H2 & Hf2 & Hg2). rewrite (Hty e eq_refl), N.eqb_refl.
    intros A2 HA2. rewrite (shows_unique _ _ _ HA2 (shows_write s2 A' o d a f I2 H2 Hp2)). eapply sim_trans; [exact (Y A' H2)|].
    apply (sim_write _ _ U); [apply union_subseteq_l|exact Hfm].
  - intros _. exact Y.
Qed.

Lemma call_o_sim U x A s n :
  Inv s → stack s = [] → shows s A → firm U A → all_fair A → may U x → sim_call U A (step_o n U x s).
Proof using Hpk.
  intros I Hst H Hf Hg Hm.
  assert ((∀ h o, x ≠ OGet h o) → (∀ o f, x ≠ OGetMut o f) → sim_call U A (step E n x s)) as Hsimple.
  { intros Hx1 Hx2. destruct (step E n x s) as [r s'|k s'| |] eqn:Hs; try done.
    - destruct (call_sound E x A s n (Returned r) s' I Hst H Hs) as (A' & Hc & H'). intros A2 HA2.
      rewrite (shows_unique _ _ _ HA2 (H' ltac:(done))). exact (simple_sim U x s A _ _ I H Hf Hg Hm Hx1 Hx2 Hc).
    - destruct (call_sound E x A s n (Panicked k) s' I Hst H Hs) as (A' & Hc & H'). intros Hk A2 HA2.
      rewrite (shows_unique _ _ _ HA2 (H' ltac:(congruence))). pose proof (simple_sim U x s A _ _ I H Hf Hg Hm Hx1 Hx2 Hc) as X.
      cbn [mentions_ans] in X. by rewrite (right_id_L ∅ (∪)) in X. }
  destruct x as [d|o|h o|o f|h o|o f|o|o f|o|o|o| | | |o| ]; cbn [Owned.step_o]; try (by apply Hsimple).
  - pose proof (alloc_iff E s A d I H) as Ha. destruct (alloc E d s) as [[o s1]|] eqn:Hal; [|done].
    destruct Ha as (Hfr & -> & H1). intros A2 HA2. rewrite (shows_unique _ _ _ HA2 H1). destruct Hm as [Hd Hfd]. cbn [mentions_out].
    apply sim_alloc; [done..|]. intros o Ho. by apply reach_in, Hd.
  - destruct Hm as [Ho Hh]. pose proof (get_o_sim (build_o n) U h o s A (build_o_sound E fields keep n) (build_o_sim n) I H Hf Hg) as X. rewrite Hst in X.
    specialize (X ltac:(intros ? ?%elem_of_nil; done) ltac:(exists o; split; [done|apply rtc_refl]) Hh).
    destruct (get_o E (build_o n U) h o s) as [r s2|k s2| |]; try done. intros _. exact X.
  - by eapply get_mut_o_sim.
Qed.
End MemRuns.
