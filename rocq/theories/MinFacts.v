(** Minimal rebuilding: proofs. *)
From Verif Require Export MinSpec EvalTotal.
From stdpp Require Import relations.

Section MinSpecFacts.
Context (B : obj → option bdef) (σ : obj → option val).
Notation asks_body := (asks_body B σ).
Notation asks := (asks B σ).
Notation wanted := (wanted B σ).

Lemma wanted_not C o w : wanted C o w → ¬ C w.
Proof. by destruct 1. Qed.
Lemma wanted_root C o w : wanted C o w → ¬ C o.
Proof. by induction 1. Qed.
Lemma wanted_mono (C C' : obj → Prop) o w : (∀ z, C' z → C z) → wanted C o w → wanted C' o w.
Proof. intros H. induction 1 as [Hn|u w _ IH Ha Hn]; [apply wanted_top; auto|eapply wanted_sub; eauto]. Qed.
Lemma wanted_step C o z w : ¬ C o → asks o z → wanted C z w → wanted C o w.
Proof.
  intros Ho Ha. induction 1 as [Hn|u w _ IH Hu Hn].
  - eapply wanted_sub; [by apply wanted_top|done|done].
  - by eapply wanted_sub.
Qed.
Lemma wanted_path C o w : wanted C o w → rtc asks o w.
Proof. induction 1; [apply rtc_refl|by eapply rtc_r]. Qed.

Context (HB : ∀ o d, B o = Some d → oblivious (bd_body d)).

(** What has been evaluated does not ask for itself. *)
Lemma evals_acc :
  (∀ o r, evals B σ o r → Acc (flip asks) o) ∧
  (∀ v c r, evals_body B σ v c r → ∀ c' z, alike c c' → asks_body v c' z → Acc (flip asks) z).
Proof.
  apply (evals_both B σ (λ o r _, Acc (flip asks) o)
    (λ v c r _, ∀ c' z, alike c c' → asks_body v c' z → Acc (flip asks) z)).
  - intros o d Hd Hs. constructor. intros z (d' & v & _ & Hv & _). congruence.
  - intros o d v r Hd Hs _ IH. constructor. intros z (d' & v' & Hd' & Hv & Hz).
    assert (d' = d ∧ v' = v) as [-> ->] by (split; congruence). eapply IH; [|exact Hz]. by eapply HB.
  - intros v r c' z Ha Hz. inversion Ha; subst. inversion Hz.
  - intros v c' z Ha Hz. inversion Ha; subst. inversion Hz.
  - intros v h w k x r Hw IHw _ IHk c' z Ha Hz. inversion Ha as [| |? ? ? k' Hkk| |]; subst.
    inversion Hz as [|? ? ? ? x' ? Hx' Hz'| |]; subst; [done|].
    pose proof (proj1 (evals_det B σ HB) w _ Hw _ Hx') as Hxx. cbn in Hxx. injection Hxx as Hxx.
    eapply IHk; [|exact Hz']. apply Hkk. by apply strip_handed.
  - intros v h w k Hw IHw c' z Ha Hz. inversion Ha as [| |? ? ? k' Hkk| |]; subst.
    inversion Hz as [|? ? ? ? x' ? Hx' Hz'| |]; subst; [done|].
    pose proof (proj1 (evals_det B σ HB) w _ Hw _ Hx') as Hxx. done.
  - intros v k r _ IH c' z Ha Hz. inversion Ha as [| | |? k' Hkk|]; subst. inversion Hz; subst. eapply IH; [apply Hkk|done].
  - intros v x k p r _ IH c' z Ha Hz. inversion Ha as [| | | |? x' ? k' Hxx Hkk]; subst. inversion Hz; subst. eapply IH; [apply Hkk|done].
Qed.
Lemma acc_irrefl o : Acc (flip asks) o → ¬ tc asks o o.
Proof.
  induction 1 as [o _ IH]. intros Ht.
  assert (∃ z, asks o z ∧ rtc asks z o) as (z & Hz & Hp).
  { inversion Ht as [? ? Hr|? y ? Hr Hy]; subst; [exists o; split; [exact Hr|apply rtc_refl]|]. exists y. split; [exact Hr|by apply tc_rtc]. }
  apply (IH z Hz). eapply tc_rtc_l; [exact Hp|]. by constructor.
Qed.
Lemma evals_no_cycle o r : evals B σ o r → ¬ tc asks o o.
Proof. intros H. apply acc_irrefl. exact (proj1 evals_acc o r H). Qed.
End MinSpecFacts.

Lemma count_zero f l : (∀ e, e ∈ l → f e = false) → count f l = 0.
Proof.
  intros H. unfold count. induction l as [|e l IH]; [done|].
  rewrite filter_cons_False; [apply IH; set_solver|]. rewrite H by left. done.
Qed.
Lemma count_call_in w l : ECall w ∉ l → count (is_call w) l = 0.
Proof.
  intros H. apply count_zero. intros e He. destruct e; try done. cbn.
  apply N.eqb_neq. intros ->. done.
Qed.
Lemma count_single f e : count f [e] ≤ 1.
Proof. unfold count. rewrite filter_cons. case_decide; cbn; lia. Qed.
Lemma count_call_pos w l : 0 < count (is_call w) l → ECall w ∈ l.
Proof.
  unfold count. intros H. destruct (filter (λ e, is_call w e = true) l) as [|e l'] eqn:Hf; [cbn in H; lia|].
  assert (e ∈ filter (λ e, is_call w e = true) l) as He by (rewrite Hf; left).
  apply elem_of_list_filter in He as [He Hin]. destruct e; try done. cbn in He. apply N.eqb_eq in He as ->. done.
Qed.

Section MinFacts.
Context (E : env) (B : obj → option bdef) (σ : obj → option val).
Context (HB : ∀ o d, B o = Some d → oblivious (bd_body d)).
Local Notation prim := (Prims.prim E).
Local Notation prims := (rtc prim).
Notation asks_body := (asks_body B σ).
Notation asks := (asks B σ).
Notation wanted := (wanted B σ).
Notation fits := (fits B σ).
Notation evals := (evals B σ).

Lemma has_mono s s' z : Inv s → prims s s' → has s z → has s' z.
Proof.
  intros I Hp Hz. refine (prims_ind_inv E (λ x, has x z) s s' I Hz _ Hp).
  intros s1 s2 I1 _ _ H1 H12. destruct (prim_trace E s1 s2 H12) as [l Hl].
  unfold has in *. rewrite (prim_cached_exact E s1 s2 l z I1 H12 Hl).
  destruct l as [|e l]; [done|]. destruct e; try done. by destruct (decide _).
Qed.

(** From [s] to [s'], running [R]'s worth of builders: [R] is what was asked for at
    the top. *)
Record ran (s s' : st) (R : obj → Prop) (l : list event) : Prop := {
  rn_called : ∀ w, ECall w ∈ l → ∃ z, R z ∧ wanted (has s) z w;
  rn_all : ∀ z, R z → has s z ∨ ECall z ∈ l;
  rn_new : ∀ z, has s' z → has s z ∨ ECall z ∈ l;
  rn_closed : ∀ u z, ECall u ∈ l → asks u z → has s z ∨ ECall z ∈ l;
  rn_once : ∀ w b, evals w (EvRet (Ok b)) → count (is_call w) l ≤ 1;
  rn_has : ∀ w b, evals w (EvRet (Ok b)) → ECall w ∈ l → has s' w;
}.
Definition ran_out {A} (s : st) (x : outcome A) (R : obj → Prop) : Prop :=
  (∀ a s', x = Done a s' → ∃ l, trace s' = l ++ trace s ∧ ran s s' R l) ∧
  (∀ k s', x = Panic k s' → ∃ l, trace s' = l ++ trace s ∧ ∀ w, ECall w ∈ l → ∃ z, R z ∧ wanted (has s) z w).

Definition bld_ran (bld : obj → st → outcome bres) : Prop :=
  ∀ o s d a, Inv s → pureinv s → fits s → promise o s = Some (d, a) → artifacts (ch s) !! a = None →
    ran_out s (bld o s) (λ z, z = o).

Lemma get_with_ran bld h o s :
  bld_user bld → bld_ran bld → Inv s → pureinv s → fits s → ran_out s (get_with E bld h o s) (λ z, z = o).
Proof.
  intros Hu Hr I HP Hf. unfold get_with. destruct (promise o s) as [[d a]|] eqn:Hp; [|by split].
  destruct (how_legal E h); [|by split].
  rewrite (lookup_art_ok _ o s d a I Hp).
  destruct (artifacts (ch s) !! a) as [e|] eqn:He.
  - split; [|done]. intros r s' [= <- <-]. exists []. split; [done|]. split; try (by intros ? ?%elem_of_nil); try done.
    + intros z ->. left. unfold has. by rewrite (live_cached s o d a I Hp), He.
    + auto.
    + by intros u z ?%elem_of_nil.
    + intros w b _. cbn. lia.
    + by intros w b _ ?%elem_of_nil.
  - destruct (Hr o s d a I HP Hf Hp He) as [H1 H2]. destruct (Hu o s d a I Hp He) as [U1 U2].
    destruct (bld o s) as [[e|e] s1|k s1| |]; [..|by split|by split].
    + rewrite (U2 _ _ eq_refl), N.eqb_refl. split; [|done]. intros r s' [= <- <-]. by apply (H1 _ _ eq_refl).
    + split; [|done]. intros r s' [= <- <-]. by apply (H1 _ _ eq_refl).
    + split; [done|]. intros k' s' [= <- <-]. by apply (H2 _ _ eq_refl).
Qed.

(** One after the other. *)
Lemma ran_trans s s1 s2 R1 R2 l1 l2 (R : obj → Prop) :
  (∀ z, has s z → has s1 z) → ran s s1 R1 l1 → ran s1 s2 R2 l2 →
  (∀ z, has s1 z → has s2 z) →
  (∀ z, R z ↔ R1 z ∨ R2 z) → ran s s2 R (l2 ++ l1).
Proof.
  intros Hm1 H1 H2 Hm HR.
  assert (∀ w, ECall w ∈ l2 → ¬ has s1 w) as Hfresh.
  { intros w Hw. destruct (rn_called _ _ _ _ H2 w Hw) as (z & _ & Hn). by apply wanted_not in Hn. }
  split.
  - intros w [Hw|Hw]%elem_of_app.
    + destruct (rn_called _ _ _ _ H2 w Hw) as (z & Hz & Hn). exists z. split; [apply HR; by right|]. by eapply wanted_mono.
    + destruct (rn_called _ _ _ _ H1 w Hw) as (z & Hz & Hn). exists z. split; [apply HR; by left|done].
  - intros z [Hz|Hz]%HR.
    + destruct (rn_all _ _ _ _ H1 z Hz); [by left|right; apply elem_of_app; by right].
    + destruct (rn_all _ _ _ _ H2 z Hz) as [Hh|]; [|right; apply elem_of_app; by left].
      destruct (rn_new _ _ _ _ H1 z Hh); [by left|right; apply elem_of_app; by right].
  - intros z Hz. destruct (rn_new _ _ _ _ H2 z Hz) as [Hh|]; [|right; apply elem_of_app; by left].
    destruct (rn_new _ _ _ _ H1 z Hh); [by left|right; apply elem_of_app; by right].
  - intros u z [Hu|Hu]%elem_of_app Ha.
    + destruct (rn_closed _ _ _ _ H2 u z Hu Ha) as [Hh|]; [|right; apply elem_of_app; by left].
      destruct (rn_new _ _ _ _ H1 z Hh); [by left|right; apply elem_of_app; by right].
    + destruct (rn_closed _ _ _ _ H1 u z Hu Ha); [by left|right; apply elem_of_app; by right].
  - intros w b Hb. rewrite count_app.
    pose proof (rn_once _ _ _ _ H1 w b Hb). pose proof (rn_once _ _ _ _ H2 w b Hb).
    destruct (count (is_call w) l1) as [|c] eqn:Hc; [lia|].
    assert (ECall w ∈ l1) as Hw by (apply count_call_pos; lia).
    rewrite (count_call_in w l2); [lia|]. intros Hw2. apply (Hfresh w Hw2). by eapply (rn_has _ _ _ _ H1).
  - intros w b Hb [Hw|Hw]%elem_of_app; [by eapply (rn_has _ _ _ _ H2)|]. apply Hm. by eapply (rn_has _ _ _ _ H1).
Qed.

(** No events of interest. *)
Lemma ran_quiet s s' l : (∀ z, has s' z → has s z) → (∀ w, ECall w ∉ l) → ran s s' (λ _, False) l.
Proof.
  intros Hh Hl. split; try done; try (by intros ? ?%Hl).
  - auto.
  - by intros u z ?%Hl.
  - intros w b _. rewrite count_call_in by done. lia.
  - by intros w b _ ?%Hl.
Qed.

Lemma exec_ran bld u du ua S v :
  bld_ok E bld → bld_user bld → bld_pure bld → bld_ran bld → ∀ p s, pure_prog p → Inv s → pureinv s → fits s →
  stack s = u :: S → objs s !! u = Some (du, ua) → config s u = Some v →
  (∀ r s', exec E bld u ua (bd_sty du) p s = Done r s' →
     ∃ l, trace s' = l ++ trace s ∧ ∃ R, ran s s' R l ∧ (∀ z, R z → asks_body v p z) ∧
       ∀ p' z, alike p p' → asks_body v p' z → R z) ∧
  (∀ k s', exec E bld u ua (bd_sty du) p s = Panic k s' →
     ∃ l, trace s' = l ++ trace s ∧ ∀ w, ECall w ∈ l → ∃ z, asks_body v p z ∧ wanted (has s) z w).
Proof.
  intros Hb Hbu Hbp Hbr p.
  induction p as [r| |h w k IH|k IH|v' p IH|k IH|v' k IH|d k IH|w p IH];
    intros s Hpp I HP Hf Hst Hu Hv; cbn [exec]; try done.
  - split; [|done]. intros r' s' [= <- <-]. exists []. split; [done|]. exists (λ _, False). split_and!.
    + apply ran_quiet; [auto|by intros w ?%elem_of_nil].
    + done.
    + intros p' z Ha Hz. inversion Ha; subst. inversion Hz.
  - split; [done|]. intros k' s' [= <- <-]. exists []. split; [done|]. by intros w ?%elem_of_nil.
  - cbn in Hpp. unfold resolve_with. destruct (promise w s) as [[d wa]|] eqn:Hp; [|by split].
    unfold track_dependency.
    destruct (i_stack _ I u) as (_ & d' & a' & Hu' & Hku & Hdu); [rewrite Hst; left|].
    assert (a' = ua ∧ d' = du) as [-> ->] by (split; congruence).
    assert (prim s (set_ch (make_known wa w (ch s)) s)) as P1 by (eapply pm_know; eauto).
    pose proof (prim_Inv E _ _ P1 I) as I1.
    assert (known (make_known wa w (ch s)) !! ua = Some u) as Hku1 by (by apply make_known_mono).
    unfold is_known. rewrite (bool_decide_eq_true_2 (is_Some _)) by (rewrite Hku1; eauto).
    rewrite andb_false_r.
    set (s1 := log (EResolve u w) (set_ch (add_edge ua wa (make_known wa w (ch s))) s)).
    assert (prim (set_ch (make_known wa w (ch s)) s) s1) as P2.
    { eapply (pm_edge E (set_ch (make_known wa w (ch s)) s)); try done. apply make_known_known. }
    assert (prims s s1) as P01 by (eapply rtc_l; [exact P1|by apply rtc_once]).
    pose proof (prim_Inv E _ _ P2 I1) as I2.
    assert (pgrow s s1) as G01.
    { split_and!; [done| |].
      - intros o. apply config_ext; [done|]. apply state_ext; [done..| |].
        + cbn. by destruct (make_known_fields wa w (ch s)) as (_ & -> & _).
        + intros a o' Hk. cbn. by apply make_known_mono.
      - intros u' w'. by apply (prims_dep_mono E). }
    assert (∀ o, cached s1 o = cached s o) as Hc01.
    { intros o. eapply (prims_cached_same E s s1 [EResolve u w]); [done..|]. set_solver. }
    assert (pureinv s1) as HP1 by (eapply pgrow_pureinv; [exact G01|exact Hc01|exact HP]).
    pose proof (fits_grow _ _ _ _ Hf G01) as Hf1.
    pose proof (get_with_pure E bld h w s1 Hbu Hbp I2 HP1) as [H1 H2].
    pose proof (get_with_prims E bld h w s1 Hb (i_wf _ I2)) as [Q1 Q2].
    pose proof (get_with_ran bld h w s1 Hbu Hbr I2 HP1 Hf1) as [N1 N2].
    assert (ran s s1 (λ _, False) [EResolve u w]) as N01.
    { apply ran_quiet; [|set_solver]. intros z. unfold has. by rewrite Hc01. }
    change (log (EResolve u w) _) with s1.
    destruct (get_with E bld h w s1) as [rv s2|pk s2| |] eqn:Hgw; [..|by split|by split].
    + destruct (H1 _ _ eq_refl) as (HP2 & G12 & x & Hx & ->).
      destruct (N1 _ _ eq_refl) as (l1 & Hl1 & N12). clear N1 N2.
      assert (prims s1 s2) as P12 by (apply Q1; left; eauto).
      assert (Inv s2) as I2' by (by eapply prims_Inv).
      set (s3 := log (EGot u w (handed h x)) s2).
      destruct (pureinv_ext s2 s3 HP2) as [HP3 G23]; [done..|].
      assert (pgrow s s3) as G03 by (eapply pgrow_trans; [exact G01|eapply pgrow_trans; [exact G12|exact G23]]).
      assert (Inv s3) as I3 by (by apply Inv_log).
      destruct (Q2 _ _ eq_refl) as [Hst2 _].
      pose proof (fits_grow _ _ _ _ Hf1 G12) as Hf2. pose proof (fits_grow _ _ _ _ Hf2 G23) as Hf3.
      pose proof (fits_eval _ _ s2 w _ Hf2 Hx) as Hx'.
      assert (ran s2 s3 (λ _, False) [EGot u w (handed h x)]) as N23 by (apply ran_quiet; [done|set_solver]).
      assert (ran s s2 (λ z, z = w) (l1 ++ [EResolve u w])) as N02.
      { eapply ran_trans; [by intros z; apply has_mono|exact N01|exact N12| |by intros z; tauto].
        intros z. by apply has_mono. }
      assert (ran s s3 (λ z, z = w) (EGot u w (handed h x) :: l1 ++ [EResolve u w])) as N03.
      { eapply (ran_trans s s2 s3 _ _ _ [_]); [intros z; apply has_mono; [exact I|by etrans]|exact N02|exact N23|done|by intros z; tauto]. }
      assert (trace s3 = (EGot u w (handed h x) :: l1 ++ [EResolve u w]) ++ trace s) as Hl3.
      { cbn. rewrite Hl1. cbn. by rewrite <- (assoc_L (++)). }
      clear N01 N12 N23 N02.
      assert (stack s3 = u :: S) as Hst3 by (cbn; by rewrite Hst2).
      assert (objs s3 !! u = Some (du, ua)) as Hu3 by (by destruct G03 as (-> & _)).
      assert (config s3 u = Some v) as Hv3 by (by destruct G03 as (_ & -> & _)).
      destruct (IH (handed h x) s3 (Hpp _) I3 HP3 Hf3 Hst3 Hu3 Hv3) as [X1 X2].
      assert (∀ z, has s z → has s3 z) as Hm.
      { intros z Hz. change (has s2 z). eapply has_mono; [exact I| |exact Hz]. by etrans. }
      split.
      * intros r s' Hr. destruct (X1 r s' Hr) as (l2 & Hl2 & R & N34 & HR1 & HR2).
        assert (prims s3 s') as P34.
        { apply (exec_prims E bld u du ua S Hb (k (handed h x)) s3 (i_wf _ I3) Hst3 Hu3). left. eauto. }
        exists (l2 ++ (EGot u w (handed h x) :: l1 ++ [EResolve u w])).
        split; [by rewrite Hl2, Hl3, (assoc_L (++))|]. exists (λ z, z = w ∨ R z). split_and!.
        -- eapply (ran_trans s s3 s'); [exact Hm|exact N03|exact N34|by intros z; apply has_mono|done].
        -- intros z [->|Hz]; [constructor|]. eapply ab_later; [exact Hx'|by apply HR1].
        -- intros p' z Ha Hz. inversion Ha as [| |? ? ? k' Hkk| |]; subst.
           inversion Hz as [|? ? ? ? x' ? Hx2 Hz'| |]; subst; [by left|]. right.
           pose proof (proj1 (evals_det B σ HB) w _ Hx' _ Hx2) as Hxx. cbn in Hxx. injection Hxx as Hxx.
           eapply HR2; [|exact Hz']. apply Hkk. by apply strip_handed.
      * intros pk s' Hr. destruct (X2 pk s' Hr) as (l2 & Hl2 & Hc).
        exists (l2 ++ (EGot u w (handed h x) :: l1 ++ [EResolve u w])).
        split; [by rewrite Hl2, Hl3, (assoc_L (++))|]. intros y [Hy|Hy]%elem_of_app.
        -- destruct (Hc y Hy) as (z & Hz & Hn). exists z. split; [by eapply ab_later|]. by eapply wanted_mono.
        -- destruct (rn_called _ _ _ _ N03 y Hy) as (z & -> & Hn). exists w. split; [constructor|done].
    + destruct (N2 _ _ eq_refl) as (l1 & Hl1 & Hc). split; [done|]. intros k' s' [= <- <-].
      exists (l1 ++ [EResolve u w]). split; [rewrite Hl1; cbn; by rewrite <- (assoc_L (++))|].
      intros y [Hy|Hy]%elem_of_app; [|set_solver].
      destruct (Hc y Hy) as (z & -> & Hn). exists w. split; [constructor|]. eapply wanted_mono; [|exact Hn].
      intros z. unfold has. by rewrite Hc01.
  - cbn in Hpp. destruct (i_stack _ I u) as (_ & d' & a' & Hu' & Hku & [v' Hv']); [rewrite Hst; left|].
    assert (a' = ua ∧ d' = du) as [-> ->] by (split; congruence).
    unfold my_state, is_known. rewrite Hku, Hv'.
    rewrite (bool_decide_eq_true_2 (is_Some (Some u))) by eauto. rewrite !andb_false_r.
    rewrite (ci_dyn_ty _ _ (i_c _ I) ua v' u du Hv' Hku Hu), N.eqb_refl.
    assert (ds_val v' = v) as ->.
    { unfold config in Hv. rewrite (state_at s u du ua Hu Hku), Hv' in Hv. cbn in Hv. congruence. }
    destruct (IH v s) as [X1 X2]; try done. split.
    + intros r s' Hr. destruct (X1 r s' Hr) as (l & Hl & R & HR & HR1 & HR2). exists l. split; [done|]. exists R. split_and!; [done|..].
      * intros z Hz. constructor. by apply HR1.
      * intros p' z Ha Hz. inversion Ha as [| | |? k' Hkk|]; subst. inversion Hz; subst. by eapply HR2.
    + intros pk s' Hr. destruct (X2 pk s' Hr) as (l & Hl & Hc). exists l. split; [done|].
      intros y Hy. destruct (Hc y Hy) as (z & Hz & Hn). exists z. split; [by constructor|done].
  - cbn in Hpp. set (s1 := set_nbin _ s). destruct (pureinv_ext s s1 HP) as [HP1 G01]; [done..|].
    assert (Inv s1) as I1 by (eapply (prim_Inv E); [apply (pm_newbin E)|done]).
    destruct (IH (Bin (nbin s) v') s1) as [X1 X2]; try done. split.
    + intros r s' Hr. destruct (X1 r s' Hr) as (l & Hl & R & HR & HR1 & HR2). exists l. split; [done|]. exists R. split_and!.
      * destruct HR. by split.
      * intros z Hz. eapply ab_newbin. by apply HR1.
      * intros p' z Ha Hz. inversion Ha as [| | | |? x' ? k' Hxx Hkk]; subst. inversion Hz; subst. by eapply HR2.
    + intros pk s' Hr. destruct (X2 pk s' Hr) as (l & Hl & Hc). exists l. split; [done|].
      intros y Hy. destruct (Hc y Hy) as (z & Hz & Hn). exists z. split; [by eapply ab_newbin|done].
Qed.

Lemma build_ran n : bld_ran (build E n).
Proof.
  induction n as [|n IH]; intros o s d a I HP Hf Hp Hn; [by split|].
  pose proof (build_pure E (S n) o s d a I HP Hp Hn) as [BP1 BP2].
  assert (¬ has s o) as Hno by (unfold has; rewrite (live_cached s o d a I Hp), Hn; auto).
  cbn [build] in *. rewrite Hp in *.
  destruct d as [aty sty init body] eqn:Hd. unfold contains_artifact in *. rewrite Hn in *.
  rewrite (bool_decide_eq_false_2 (is_Some None)) in * by (intros [? ?]; done). rewrite andb_false_r in *.
  apply promise_Some in Hp as Hp'. destruct Hp' as [Hal Ho].
  set (sk := set_ch (make_known a o (ch s)) s).
  assert (prim s sk) as Pk by (eapply pm_know; eauto).
  assert (Inv sk) as Ik by (eapply (prim_Inv E); [exact Pk|done]).
  assert (pgrow s sk) as Gk.
  { split_and!; [done| |].
    - intros o'. apply config_ext; [done|]. apply state_ext; [done..| |].
      + cbn. by destruct (make_known_fields a o (ch s)) as (_ & -> & _).
      + intros a' o'' Hk. cbn. by apply make_known_mono.
    - intros u' w'. apply (prims_dep_mono E); [done|]. by apply rtc_once. }
  assert (pureinv sk) as HPk.
  { eapply pgrow_pureinv; [exact Gk| |exact HP]. intros o'.
    eapply (prims_cached_same E s sk []); [done|by apply rtc_once|done|set_solver]. }
  destruct (ensure_effect E o sk d a Ik) as (c2 & I2 & Hm); [by subst d|].
  assert (∀ v, sets_state sk o v (set_ch c2 sk) → v = config sk o → pgrow sk (set_ch c2 sk) ∧ pureinv (set_ch c2 sk)) as Hss.
  { intros v Hs Hv. assert (pgrow sk (set_ch c2 sk)) as G.
    { split_and!; [done| |].
      - intros w. destruct (decide (w = o)) as [->|Hne].
        + unfold config at 1. rewrite (ss_state _ _ _ _ Hs), Hv. destruct (config sk o) eqn:Hc; [done|].
          unfold config in Hc. destruct (state_of sk o); [done|]. exact Hc.
        + apply config_ext; [done|]. by apply (ss_others _ _ _ _ Hs).
      - intros u w H. by apply (ss_depends _ _ _ _ Hs). }
    split; [done|]. eapply pgrow_pureinv; [exact G| |exact HPk]. apply (ss_cached _ _ _ _ Hs). }
  assert (initial sk o = bd_init d) as Hini by (unfold initial; cbn; rewrite Ho; by subst d).
  subst d. cbn [bd_sty bd_init] in *. change (ch sk) with (make_known a o (ch s)) in Hm.
  assert ((∃ v, ensure_dyn_state a o sty init (make_known a o (ch s)) = (c2, inr v) ∧ config sk o = Some v ∧ sets_state sk o (Some v) (set_ch c2 sk)) ∨
    ∃ k, ensure_dyn_state a o sty init (make_known a o (ch s)) = (c2, inl k)) as Hcase.
  { unfold config. rewrite Hini. destruct (state_of sk o) as [v|] eqn:Hst; [destruct Hm; eauto|].
    destruct init as [v|]; destruct Hm; eauto. }
  clear Hm. destruct Hcase as [(v & He & Hcfg & Hs)|(k & He)]; rewrite He in *.
  2: { split; [done|]. intros k' s' [= <- <-]. exists []. split; [done|]. by intros w ?%elem_of_nil. }
  destruct (Hss (Some v) Hs) as [G HP2]; [congruence|].
  set (s1 := log _ _) in *.
  destruct (pureinv_ext (set_ch c2 sk) s1 HP2) as [HP1 G21]; [done..|].
  assert (pgrow s s1) as G01 by (eapply pgrow_trans; [exact Gk|eapply pgrow_trans; [exact G|exact G21]]).
  destruct (ensure_prims E o s (BDef aty sty init body) a c2 (inr v) Hp) as (E1 & Ea & Ek & Ed).
  { exact He. }
  assert (prims s s1) as P01.
  { eapply rtc_r; [exact E1|]. eapply (pm_push E (set_ch c2 s)); eauto. cbn. congruence. }
  assert (Inv s1) as I1 by (by eapply prims_Inv).
  assert (trace s1 = ECall o :: trace s) as Ht1 by done.
  assert (∀ z, cached s1 z = cached s z) as Hc01.
  { intros z. eapply (prims_cached_same E s s1 [ECall o]); [done..|]. intros u b Hin. apply elem_of_list_singleton in Hin. done. }
  assert (config s1 o = Some v) as Hc1.
  { destruct G01 as (_ & -> & _). by destruct Gk as (_ & <- & _). }
  assert (pure_prog body) as Hpp by (apply (proj1 HP o _ a Ho)).
  destruct (Hf o) as [Hdo Hco]. unfold defs in Hdo. rewrite Ho in Hdo. cbn in Hdo.
  assert (σ o = Some v) as Hso by (rewrite <- Hco; by destruct Gk as (_ & <- & _)).
  assert (oblivious body) as Hob by (by apply (HB o (BDef aty sty init body))).
  assert (∀ z, asks_body v body z → asks o z) as Hasks by (intros z Hz; by exists (BDef aty sty init body), v).
  assert (∀ z, asks o z → asks_body v body z) as Hasks2.
  { intros z (d' & v' & Hd' & Hv' & Hz). assert (d' = BDef aty sty init body ∧ v' = v) as [-> ->] by (split; congruence). done. }
  assert (∀ (P : obj → Prop) w, (∃ z, asks_body v body z ∧ wanted (has s1) z w) → wanted (has s) o w) as Hup.
  { intros _ w (z & Hz & Hw). eapply wanted_step; [done|by apply Hasks|]. eapply wanted_mono; [|exact Hw].
    intros y. unfold has. by rewrite Hc01. }
  pose proof (build_bld_ok E n) as Hbok.
  destruct (exec_ran (build E n) o (BDef aty sty init body) a (stack s) v Hbok (build_user E n)
    (build_pure E n) IH body s1 Hpp I1 HP1 (fits_grow _ _ _ _ Hf G01) eq_refl Ho Hc1) as [X1 X2].
  destruct (exec_prims E (build E n) o (BDef aty sty init body) a (stack s) Hbok body s1) as [Y1 _];
    [exact (i_wf _ I1)|done..|].
  cbn [bd_sty] in *.
  (* what is common to success and failure *)
  assert (∀ r s2 s3 e, exec E (build E n) o a sty body s1 = Done r s2 → trace s3 = e :: trace s2 → (∀ w, e ≠ ECall w) →
    evals o (EvRet r) → (∀ b, r = Ok b → has s3 o) → (∀ z, z ≠ o → has s3 z ↔ has s2 z) → (∀ z, has s2 z → has s3 z) →
    ∃ l, trace s3 = l ++ trace s ∧ ran s s3 (λ z, z = o) l) as Hfin.
  { intros r s2 s3 e Hx Ht3 He3 Hev Hok Hh3 Hh23. destruct (X1 _ _ Hx) as (l & Hl & R & N & HR1 & HR2).
    exists (e :: l ++ [ECall o]). split; [rewrite Ht3, Hl, Ht1; cbn; by rewrite <- (assoc_L (++))|].
    assert (∀ w, ECall w ∈ e :: l ++ [ECall o] ↔ w = o ∨ ECall w ∈ l) as Hin.
    { intros w. rewrite elem_of_cons, elem_of_app, elem_of_list_singleton. split.
      - intros [?|[?|[= ->]]]; [by destruct (He3 w)|by right|by left].
      - intros [-> |?]; auto. }
    assert (ECall o ∉ l) as Hnl.
    { intros Hin'. destruct (rn_called _ _ _ _ N o Hin') as (z & Hz & Hw). apply (evals_no_cycle B σ HB o _ Hev).
      eapply tc_rtc_r; [constructor; apply Hasks, HR1, Hz|]. by eapply wanted_path. }
    split.
    - intros w [-> |Hw]%Hin.
      + exists o. split; [done|]. by apply wanted_top.
      + exists o. split; [done|]. destruct (rn_called _ _ _ _ N w Hw) as (z & Hz & Hn'). apply (Hup (λ _, True)). exists z. split; [by apply HR1|done].
    - intros z ->. right. apply Hin. by left.
    - intros z Hz. destruct (decide (z = o)) as [->|Hne]; [right; apply Hin; by left|].
      apply Hh3 in Hz; [|done]. destruct (rn_new _ _ _ _ N z Hz) as [Hz'|Hz']; [|right; apply Hin; by right].
      left. unfold has in *. by rewrite <- Hc01.
    - assert (∀ z, has s1 z ∨ ECall z ∈ l → has s z ∨ ECall z ∈ e :: l ++ [ECall o]) as Hlift.
      { intros z [Hz|Hz]; [left; unfold has in *; by rewrite <- Hc01|right; apply Hin; by right]. }
      intros u z [-> |Hu]%Hin Ha.
      + apply Hlift. apply (rn_all _ _ _ _ N). eapply HR2; [exact Hob|]. by apply Hasks2.
      + apply Hlift. by eapply (rn_closed _ _ _ _ N).
    - intros w b Hb. pose proof (rn_once _ _ _ _ N w b Hb) as Hle.
      change (e :: l ++ [ECall o]) with ([e] ++ l ++ [ECall o]). rewrite !count_app.
      rewrite (count_call_in w [e]).
      2: { intros Hw%elem_of_list_singleton. by destruct (He3 w). }
      destruct (decide (w = o)) as [->|Hne].
      + rewrite (count_call_in o l) by done. pose proof (count_single (is_call o) (ECall o)). lia.
      + rewrite (count_call_in w [ECall o]); [lia|]. intros [= ->]%elem_of_list_singleton. done.
    - intros w b Hb [-> |Hw]%Hin.
      + pose proof (proj1 (evals_det B σ HB) o _ Hev _ Hb) as Hdet. cbn in Hdet. injection Hdet as Hdet.
        destruct r as [b'|]; [|done]. by eapply Hok.
      + apply Hh23. by eapply (rn_has _ _ _ _ N). }
  destruct (exec E (build E n) o a sty body s1) as [[b|e] s2|k s2| |] eqn:Hx; [..|by split|by split].
  - cbn [artifacts set_artifacts] in *. rewrite lookup_insert in *. split; [|done]. intros r s' [= <- <-].
    destruct (BP1 _ _ eq_refl) as (_ & G03 & Hev).
    set (s3 := set_stack (stack s) (log (EBuilt o b) (set_ch (set_artifacts <[a := Art aty b]> (ch s2)) s2))) in *.
    pose proof (fits_eval _ _ s3 o _ (fits_grow _ _ _ _ Hf G03) Hev) as Hev'. cbn [res_of ar_bin] in Hev'.
    assert (prims s1 s2) as P12 by (apply Y1; left; eauto).
    assert (Inv s2) as I2' by (by eapply prims_Inv).
    destruct (exec_prims E (build E n) o (BDef aty sty init body) a (stack s) Hbok body s1 (i_wf _ I1) eq_refl Ho) as [_ Y2].
    assert (prim s2 s3) as P23.
    { eapply (pm_ok E s2 o (BDef aty sty init body) a (stack s) b); [exact (Y2 _ _ Hx)|]. exact (prims_objs E s1 s2 o _ P12 (i_wf _ I1) Ho). }
    pose proof (λ z, prim_cached_exact E s2 s3 [EBuilt o b] z I2' P23 eq_refl) as Hc3. cbn in Hc3.
    eapply (Hfin (Ok b) s2 s3 (EBuilt o b)); [done|done|done|exact Hev'|..].
    + intros b' _. unfold has. rewrite Hc3. by rewrite decide_True.
    + intros z Hz. unfold has. rewrite Hc3. by rewrite decide_False by done.
    + intros z Hz. unfold has. rewrite Hc3. by destruct (decide (o = z)).
  - split; [|done]. intros r s' [= <- <-]. destruct (BP1 _ _ eq_refl) as (_ & G03 & Hev).
    set (s3 := set_stack (stack s) (log (EFailed o e) s2)) in *.
    pose proof (fits_eval _ _ s3 o _ (fits_grow _ _ _ _ Hf G03) Hev) as Hev'. cbn [res_of] in Hev'.
    eapply (Hfin (Err e) s2 s3 (EFailed o e)); done.
  - split; [done|]. intros k' s' [= <- <-]. destruct (X2 _ _ eq_refl) as (l & Hl & Hc).
    exists (l ++ [ECall o]). split; [rewrite Hl, Ht1; by rewrite <- (assoc_L (++))|].
    intros w [Hw|Hw]%elem_of_app.
    + exists o. split; [done|]. apply (Hup (λ _, True)). by apply Hc.
    + apply elem_of_list_singleton in Hw as [= ->]. exists o. split; [done|]. by apply wanted_top.
Qed.

Lemma get_ran n h o s : Inv s → pureinv s → fits s → ran_out s (get E n h o s) (λ z, z = o).
Proof. intros. apply get_with_ran; [apply build_user|apply build_ran|done..]. Qed.
End MinFacts.
