(** Cache transparency while other threads run: proofs, on the reference cache
    (ThreadSpec.v). *)
From Verif Require Export ThreadFacts EvalFacts.
From stdpp Require Import relations.

Scheme tget_mut := Minimality for tget Sort Prop
  with tbuild_mut := Minimality for tbuild Sort Prop
  with trun_mut := Minimality for trun Sort Prop.
Combined Scheme tget_all from tget_mut, tbuild_mut, trun_mut.

Section TransFacts.
Context (ask : nat → N) (kd : kind).
Notation r_others := (r_others ask).
Notation tget := (tget ask kd).
Notation tbuild := (tbuild ask kd).
Notation trun := (trun ask kd).
Notation tcall := (tcall ask kd).
Notation truns := (truns ask kd).

(** ** Builders are only ever added *)
Definition rwf (A : ref) : Prop := ∀ o x, r_who A !! o = Some x → (o < r_nobj A)%N.
Definition more (A A' : ref) : Prop := rwf A → rwf A' ∧ r_who A ⊆ r_who A'.
Lemma more_refl A A' : r_who A' = r_who A → r_nobj A' = r_nobj A → more A A'.
Proof. intros H1 H2 Hw. unfold rwf. rewrite H1, H2. done. Qed.
Lemma more_trans A A1 A2 : more A A1 → more A1 A2 → more A A2.
Proof. intros H1 H2 Hw. destruct (H1 Hw) as [W1 S1]. destruct (H2 W1) as [W2 S2]. split; [done|]. by etransitivity. Qed.
Lemma more_alloc d a A : more A (r_alloc d a A).
Proof.
  intros Hw. split.
  - intros o x. cbn. intros [[<- _]|[_ Hx]]%lookup_insert_Some; [lia|]. apply Hw in Hx. lia.
  - cbn. apply insert_subseteq. destruct (r_who A !! r_nobj A) as [x|] eqn:Hx; [|done]. apply Hw in Hx. lia.
Qed.
Lemma others_more B A A' : r_others B A A' → more A A'.
Proof.
  induction 1 as [A|A A1 A2 H _ IH]; [by apply more_refl|]. eapply more_trans; [|exact IH].
  destruct H; [apply more_alloc|by apply more_refl..].
Qed.
Lemma all_more :
  (∀ B h o A x A', tget B h o A x A' → more A A') ∧
  (∀ B o A x A', tbuild B o A x A' → more A A') ∧
  (∀ B u p A x A', trun B u p A x A' → more A A').
Proof.
  apply (tget_all ask kd (λ B h o A x A', more A A') (λ B o A x A', more A A') (λ B u p A x A', more A A')); intros;
    try done; try (by apply more_refl).
  - eapply more_trans; [by eapply others_more|done].
  - eapply more_trans; [by eapply others_more|done].
  - eapply more_trans; [eassumption|]. eapply more_trans; [|eassumption]. by apply more_refl.
  - eapply more_trans; [apply more_alloc|eassumption].
Qed.

(** ** Building *)
Definition r_conf (A : ref) (o : obj) : option val :=
  match r_state A !! o with Some v => Some v | None => match r_def A o with Some d => bd_init d | None => None end end.
Definition r_dep (A : ref) (u w : obj) : Prop := (u, w) ∈ r_deps A.
Definition rev_at (A : ref) : obj → eres → Prop := evD (r_dep A) (r_def A) (r_conf A).
Definition revb_at (A : ref) : obj → val → prog → eres → Prop := evD_body (r_dep A) (r_def A) (r_conf A).
Definition rok (A : ref) : Prop := ∀ o b, r_art A !! o = Some b → rev_at A o (EvRet (Ok b)).
Definition rpure (A : ref) : Prop := ∀ o d, r_def A o = Some d → pure_prog (bd_body d).
Record rgrow (A A' : ref) : Prop := {
  rg_who : r_who A ⊆ r_who A';
  rg_conf : ∀ o, is_Some (r_who A !! o) → r_conf A' o = r_conf A o;
  rg_deps : r_deps A ⊆ r_deps A';
}.
Lemma def_mono A A' o d : r_who A ⊆ r_who A' → r_def A o = Some d → r_def A' o = Some d.
Proof.
  intros Hs. unfold r_def. destruct (r_who A !! o) as [x|] eqn:Hx; [|done]. by rewrite (lookup_weaken _ _ _ _ Hx Hs).
Qed.
Lemma def_who A o d : r_def A o = Some d → is_Some (r_who A !! o).
Proof. unfold r_def. destruct (r_who A !! o); [eauto|done]. Qed.
Lemma rpure_less A A' : r_who A ⊆ r_who A' → rpure A' → rpure A.
Proof. intros Hs Hp o d Hd. apply (Hp o). by eapply def_mono. Qed.
Lemma rgrow_refl A : rgrow A A.
Proof. done. Qed.
Lemma rgrow_trans A A1 A2 : rgrow A A1 → rgrow A1 A2 → rgrow A A2.
Proof.
  intros G1 G2. split.
  - etransitivity; [apply G1|apply G2].
  - intros o [x Ho]. rewrite (rg_conf _ _ G2), (rg_conf _ _ G1); eauto. exists x. eapply lookup_weaken; [exact Ho|apply G1].
  - etransitivity; [apply G1|apply G2].
Qed.
Lemma rgrow_ev A A' : rgrow A A' → (∀ o r, rev_at A o r → rev_at A' o r) ∧ (∀ u v p r, revb_at A u v p r → revb_at A' u v p r).
Proof.
  intros G. destruct (evD_change (r_dep A) (r_dep A') (r_def A) (r_def A') (r_conf A) (r_conf A') (λ _, False)) as [H1 H2]; try done.
  - intros u w Hd _. by apply (rg_deps _ _ G).
  - intros o d _. apply def_mono, G.
  - intros o d _ Hd. apply (rg_conf _ _ G). by eapply def_who.
  - split; intros; [apply H1|apply H2]; try done; by intros [].
Qed.
Lemma rgrow_rok A A' : rgrow A A' → r_art A' = r_art A → rok A → rok A'.
Proof. intros G Ha Hk o b. rewrite Ha. intros Hb. by apply (rgrow_ev A A' G), Hk. Qed.
(** Nothing changed that matters. *)
Lemma rgrow_ext A A' : r_who A' = r_who A → r_state A' = r_state A → r_deps A ⊆ r_deps A' → rgrow A A'.
Proof. intros H1 H2 H3. split; [by rewrite H1| |done]. intros o _. unfold r_conf, r_def. by rewrite H1, H2. Qed.
Lemma rgrow_alloc d a A : rwf A → rgrow A (r_alloc d a A).
Proof.
  intros Hw. destruct (more_alloc d a A Hw) as [_ Hs]. split; [done| |done].
  intros o [x Hx]. unfold r_conf, r_def. cbn [r_state r_alloc]. destruct (r_state A !! o); [done|]. by rewrite Hx, (lookup_weaken _ _ _ _ Hx Hs).
Qed.
Lemma others_grow B A A' : r_others B A A' → rwf A → rgrow A A' ∧ r_art A' = r_art A.
Proof.
  induction 1 as [A|A A1 A2 H _ IH]; intros Hw; [done|].
  assert (rgrow A A1 ∧ r_art A1 = r_art A ∧ rwf A1) as (G1 & E1 & W1).
  { destruct H as [d A Hf|w A Hl Hn|A|A]; [|by split; [apply rgrow_ext|]..].
    split; [by apply rgrow_alloc|]. split; [done|]. by apply more_alloc. }
  destruct (IH W1) as [G2 E2]. split; [by eapply rgrow_trans|congruence].
Qed.
Lemma others_rok B A A' : r_others B A A' → rwf A → rok A → rok A'.
Proof. intros R W Hk. destruct (others_grow _ _ _ R W) as [G E]. by eapply rgrow_rok. Qed.

(** What [init_dyn_state] or the state at hand gives is the configuration. *)
Lemma start_grow o v d A :
  r_def A o = Some d → (r_state A !! o = Some v ∨ r_state A !! o = None ∧ bd_init d = Some v) →
  rgrow A (r_note (ECall o) (r_put o v (r_meet o A))) ∧ r_conf A o = Some v.
Proof.
  intros Hd Hv. assert (r_conf A o = Some v) as Hc.
  { unfold r_conf. destruct Hv as [->|[-> Hi]]; [done|]. by rewrite Hd. }
  split; [|done]. split; [done| |done]. intros w _. unfold r_conf at 1. cbn.
  destruct (decide (w = o)) as [->|Hne]; [by rewrite lookup_insert|]. by rewrite lookup_insert_ne.
Qed.

Definition get_fine (h : how) (o : obj) (A : ref) (x : option rval) (A' : ref) : Prop :=
  rwf A → rpure A' → rok A →
  rok A' ∧ rgrow A A' ∧
  match x with Some rv => ∃ y, rev_at A' o (EvRet y) ∧ rv = handed h y | None => rev_at A' o EvPanic end.
Definition eres_of (x : option result) : eres := match x with Some r => EvRet r | None => EvPanic end.
Definition build_fine (o : obj) (A : ref) (x : option result) (A' : ref) : Prop :=
  rwf A → rpure A' → rok A → rok A' ∧ rgrow A A' ∧ rev_at A' o (eres_of x).
Definition run_fine (u : obj) (p : prog) (A : ref) (x : option result) (A' : ref) : Prop :=
  rwf A → rpure A' → rok A → ∀ v, is_Some (r_who A !! u) → r_conf A u = Some v → pure_prog p →
  rok A' ∧ rgrow A A' ∧ revb_at A' u v p (eres_of x).

Lemma all_fine :
  (∀ B h o A x A', tget B h o A x A' → get_fine h o A x A') ∧
  (∀ B o A x A', tbuild B o A x A' → build_fine o A x A') ∧
  (∀ B u p A x A', trun B u p A x A' → run_fine u p A x A').
Proof.
  destruct all_more as (MG & MB & MR).
  apply (tget_all ask kd (λ B h o A x A', get_fine h o A x A') (λ B o A x A', build_fine o A x A') (λ B u p A x A', run_fine u p A x A')).
  - intros B h o A A1 x A' Hl R Ht IH W Hp Hk. destruct (others_more _ _ _ R W) as [W1 _].
    destruct (others_grow _ _ _ R W) as [G E]. destruct (IH W1 Hp (rgrow_rok _ _ G E Hk)) as (K & G' & X).
    split; [done|]. split; [by eapply rgrow_trans|done].
  - intros B h o A b Hl Hh Hb W Hp Hk. split; [done|]. split; [done|]. exists (Ok b). split; [by apply Hk|done].
  - intros B h o A b A' Hl Hh Hn Hb IH W Hp Hk. destruct (IH W Hp Hk) as (K & G & X). do 2 (split; [done|]). by exists (Ok b).
  - intros B h o A e A' Hl Hh Hn Hb IH W Hp Hk. destruct (IH W Hp Hk) as (K & G & X). do 2 (split; [done|]). by exists (Err e).
  - intros B h o A A' Hl Hh Hn Hb IH W Hp Hk. destruct (IH W Hp Hk) as (K & G & X). done.
  - intros B o A d Hd Hs Hi W Hp Hk. assert (rgrow A (r_meet o A)) as G by (by apply rgrow_ext).
    split; [by eapply rgrow_rok|]. split; [done|]. eapply (evd_noinit _ _ _ o d); [apply (def_mono A); [apply G|exact Hd]|].
    rewrite (rg_conf _ _ G) by (by eapply def_who). unfold r_conf. by rewrite Hs, Hd.
  - intros B o A d v b A' Hd Hv Ht IH W Hp Hk. destruct (start_grow o v d A Hd Hv) as [G0 Hc]. set (A0 := r_note _ _) in *.
    destruct (MR _ _ _ _ _ _ Ht W) as [_ M].
    destruct (IH W Hp (rgrow_rok _ _ G0 eq_refl Hk) v) as (K & G & X).
    { apply (def_who A o d Hd). } { rewrite (rg_conf _ _ G0); [done|]. by eapply def_who. }
    { apply (Hp o). eapply def_mono; [|exact Hd]. exact M. }
    set (A2 := r_note _ _). assert (rgrow A' A2) as G2 by (by apply rgrow_ext).
    assert (rgrow A A2) as GG by (eapply rgrow_trans; [exact G0|]; eapply rgrow_trans; [exact G|exact G2]).
    assert (rev_at A2 o (EvRet (Ok b))) as Hev.
    { eapply (evd_body _ _ _ o d v); [apply (def_mono A); [apply GG|exact Hd]|rewrite (rg_conf _ _ GG); [done|by eapply def_who]|].
      by apply (rgrow_ev _ _ G2). }
    split; [|done]. intros w c. cbn. intros [[<- <-]|[_ Hw]]%lookup_insert_Some; [done|]. by apply (rgrow_ev _ _ G2), K.
  - intros B o A d v e A' Hd Hv Ht IH W Hp Hk. destruct (start_grow o v d A Hd Hv) as [G0 Hc]. set (A0 := r_note _ _) in *.
    destruct (MR _ _ _ _ _ _ Ht W) as [_ M].
    destruct (IH W Hp (rgrow_rok _ _ G0 eq_refl Hk) v) as (K & G & X).
    { apply (def_who A o d Hd). } { rewrite (rg_conf _ _ G0); [done|]. by eapply def_who. }
    { apply (Hp o). eapply def_mono; [|exact Hd]. exact M. }
    set (A2 := r_note _ _). assert (rgrow A' A2) as G2 by (by apply rgrow_ext).
    assert (rgrow A A2) as GG by (eapply rgrow_trans; [exact G0|]; eapply rgrow_trans; [exact G|exact G2]).
    split; [apply (rgrow_rok A' A2); done|]. split; [done|].
    eapply (evd_body _ _ _ o d v); [apply (def_mono A); [apply GG|exact Hd]|rewrite (rg_conf _ _ GG); [done|by eapply def_who]|].
    by apply (rgrow_ev _ _ G2).
  - intros B o A d v A' Hd Hv Ht IH W Hp Hk. destruct (start_grow o v d A Hd Hv) as [G0 Hc]. set (A0 := r_note _ _) in *.
    destruct (MR _ _ _ _ _ _ Ht W) as [_ M].
    destruct (IH W Hp (rgrow_rok _ _ G0 eq_refl Hk) v) as (K & G & X).
    { apply (def_who A o d Hd). } { rewrite (rg_conf _ _ G0); [done|]. by eapply def_who. }
    { apply (Hp o). eapply def_mono; [|exact Hd]. exact M. }
    assert (rgrow A A') as GG by (eapply rgrow_trans; [exact G0|exact G]).
    split; [done|]. split; [done|].
    eapply (evd_body _ _ _ o d v); [apply (def_mono A); [apply GG|exact Hd]|rewrite (rg_conf _ _ GG); [done|by eapply def_who]|done].
  - intros B u p A A1 x A' R Ht IH W Hp Hk v Hu Hv Hpp. destruct (others_more _ _ _ R W) as [W1 S1].
    destruct (others_grow _ _ _ R W) as [G E]. destruct (IH W1 Hp (rgrow_rok _ _ G E Hk) v) as (K & G' & X); [| |done|].
    { destruct Hu as [y Hu]. exists y. by eapply lookup_weaken. } { by rewrite (rg_conf _ _ G). }
    split; [done|]. split; [by eapply rgrow_trans|done].
  - intros B u r A W Hp Hk v Hu Hv Hpp. do 2 (split; [done|]). constructor.
  - intros B u A W Hp Hk v Hu Hv Hpp. do 2 (split; [done|]). constructor.
  - intros B u h w k A r A1 x A2 Hg IHg Ht IHt W Hp Hk v Hu Hv Hpp. set (A0 := r_note _ _) in *.
    assert (rgrow A A0) as G0 by (apply rgrow_ext; [done..|]; cbn; apply union_subseteq_r).
    destruct (MG _ _ _ _ _ _ Hg W) as [W1 S1]. set (A1' := r_note _ A1) in *.
    destruct (MR _ _ _ _ _ _ Ht W1) as [W2 S2].
    destruct (IHg W) as (K1 & G1 & y & Hy & ->); [by apply (rpure_less _ A2)|by eapply rgrow_rok|].
    assert (rgrow A1 A1') as G1' by (by apply rgrow_ext).
    assert (rgrow A A1') as GA by (eapply rgrow_trans; [exact G0|]; eapply rgrow_trans; [exact G1|exact G1']).
    destruct (IHt W1 Hp) with (v := v) as (K2 & G2 & X); [exact (rgrow_rok _ _ G1' eq_refl K1)| | |apply Hpp|].
    { destruct Hu as [z Hu]. exists z. eapply lookup_weaken; [exact Hu|apply GA]. } { by rewrite (rg_conf _ _ GA). }
    split; [done|]. split; [by eapply rgrow_trans|].
    assert (rgrow A1 A2) as G12 by (eapply rgrow_trans; [exact G1'|exact G2]).
    eapply (ebd_resolve _ _ _ u v h w k y); [|by apply (rgrow_ev _ _ G12)|exact X].
    apply (rg_deps _ _ G12), (rg_deps _ _ G1). cbn. apply elem_of_union_l, elem_of_singleton. done.
  - intros B u h w k A A1 Hg IHg W Hp Hk v Hu Hv Hpp. set (A0 := r_note _ _) in *.
    assert (rgrow A A0) as G0 by (apply rgrow_ext; [done..|]; cbn; apply union_subseteq_r).
    destruct (IHg W Hp) as (K1 & G1 & Hy); [by eapply rgrow_rok|]. split; [done|]. split; [by eapply rgrow_trans|].
    eapply (ebd_resolve_panic _ _ _ u v h w k); [|done]. apply (rg_deps _ _ G1). cbn. apply elem_of_union_l, elem_of_singleton. done.
  - intros B u k A v' x A' Hs Ht IH W Hp Hk v Hu Hv Hpp.
    assert (v' = v) as -> by (unfold r_conf in Hv; rewrite Hs in Hv; congruence).
    destruct (IH W Hp Hk v Hu Hv (Hpp v)) as (K & G & X). do 2 (split; [done|]). by constructor.
  - intros B u v' p A x A' Ht IH W Hp Hk v Hu Hv Hpp. by destruct Hpp.
  - intros B u k A x A' Ht IH W Hp Hk v Hu Hv Hpp. by destruct Hpp.
  - intros B u v' k A x A' Ht IH W Hp Hk v Hu Hv Hpp.
    assert (rgrow A (r_newbin A)) as G0 by (by apply rgrow_ext).
    destruct (IH W Hp (rgrow_rok _ _ G0 eq_refl Hk) v Hu Hv (Hpp _)) as (K & G & X). split; [done|]. split; [by eapply rgrow_trans|].
    eapply ebd_newbin. exact X.
  - intros B u d k A x A' Hf Ht IH W Hp Hk v Hu Hv Hpp. by destruct Hpp.
  - intros B u w p A x A' Hl Hn Ht IH W Hp Hk v Hu Hv Hpp. by destruct Hpp.
Qed.

(** ** Calls *)
Definition no_mut (x : op) : Prop := match x with OGetMut _ _ | OLookupMut _ _ => False | _ => True end.

Lemma affected_closed A o F u w : r_affected A o F → r_dep A u w → w ∈ F → u ∈ F.
Proof. intros HF Hd Hw. apply HF. apply HF in Hw. eapply rtc_r; [exact Hw|exact Hd]. Qed.

(** Forgetting [F] and unknowing [G ⊆ F]. *)
Lemma forget_rok A A' (F : obj → Prop) :
  r_who A' = r_who A → (∀ u w, r_dep A u w → F w → F u) → (∀ u w, r_dep A u w → ¬ F u → r_dep A' u w) →
  (∀ o b, r_art A' !! o = Some b → ¬ F o ∧ r_art A !! o = Some b) →
  (∀ o, ¬ F o → r_state A' !! o = r_state A !! o) → rok A → rok A'.
Proof.
  intros Hw Hcl Hd Ha Hs Hk o b Hb. destruct (Ha o b Hb) as [Hn Hb']. 
  refine (proj1 (evD_change (r_dep A) (r_dep A') (r_def A) (r_def A') (r_conf A) (r_conf A') F Hcl Hd _ _) o _ (Hk o b Hb') Hn).
  - intros o' d _. unfold r_def. by rewrite Hw.
  - intros o' d Hn' _. unfold r_conf, r_def. by rewrite Hw, (Hs o' Hn').
Qed.

Lemma rcall_fine x A y A' :
  no_mut x → (∀ h o, x ≠ OGet h o) → x ≠ OGc → rcall ask kd x A y A' → rwf A → more A A' ∧ (rok A → rok A').
Proof.
  intros Hm Hg Hgc Hc W.
  assert (∀ A', r_who A' = r_who A → r_nobj A' = r_nobj A → r_state A' = r_state A → r_deps A' = r_deps A → r_art A' = r_art A →
    more A A' ∧ (rok A → rok A')) as Hsame.
  { intros A1 E1 E2 E3 E4 E5. split; [by apply more_refl|]. apply rgrow_rok; [apply rgrow_ext; [done..|by rewrite E4]|done]. }
  assert (∀ o F A1 (st : gmap obj val), r_affected A o F → r_who A1 = r_who A → r_nobj A1 = r_nobj A →
    r_deps A1 = filter (λ x, x.1 ∉ F ∧ x.2 ∉ F) (r_deps A) → r_art A1 = filter (λ x, x.1 ∉ F) (r_art A) →
    (∀ w, w ≠ o → r_state A1 !! w = r_state A !! w) → more A A1 ∧ (rok A → rok A1)) as Hforget.
  { intros o F A1 st HF E1 E2 E3 E4 E5. split; [by apply more_refl|]. apply (forget_rok A A1 (λ w, w ∈ F)); [done| | | |].
    - intros u w. by apply (affected_closed A o).
    - intros u w Hd Hu. unfold r_dep. rewrite E3. apply elem_of_filter. cbn. split; [|done]. split; [done|].
      intros Hw. apply Hu. by eapply affected_closed.
    - intros w b. rewrite E4. intros [? ?]%map_filter_lookup_Some. done.
    - intros w Hw. apply E5. intros ->. apply Hw, HF. apply rtc_refl. }
  destruct Hc; try (by destruct Hm); try (by apply Hsame).
  - split; [apply more_alloc|]. apply rgrow_rok; [by apply rgrow_alloc|done].
  - by destruct (Hg h o).
  - by destruct (Hg h o).
  - split; [by apply more_refl|]. apply rgrow_rok; [|done].
    destruct (start_grow o v d A) as [G _]; [done|by right|]. split; apply G.
  - subst A1. eapply (Hforget o F); [exact ∅|done..|]. intros w Hw. cbn. by rewrite lookup_insert_ne.
  - subst A1. eapply (Hforget o F); [exact ∅|done..].
  - eapply (Hforget o F); [exact ∅|done..].
  - eapply (Hforget o F); [exact ∅|done..|]. intros w Hw. cbn. 
    destruct (r_state A !! w) as [v|] eqn:Hv; [apply map_filter_lookup_Some; split; [done|]; cbn; by apply not_elem_of_singleton|].
    apply map_filter_lookup_None. by left.
Qed.

Lemma tcall_fine x A y A' :
  no_mut x → tcall x A y A' → rwf A → rwf A' ∧ r_who A ⊆ r_who A' ∧ (rpure A' → rok A → rok A').
Proof.
  intros Hm Hc W.
  destruct Hc as [x A A1 y A' N1 N2 R Hrc|h o A A1 r A' R Ht|h o A A1 A' R Ht| | | |A A1 F A2 Hstr R1 [HF1 HF2] R2|A A1 Hs R]; try done.
  - destruct (others_more _ _ _ R W) as [W1 S1]. destruct (rcall_fine x A1 y A' Hm N1 N2 Hrc W1) as [M K].
    destruct (M W1) as [W2 S2]. split; [done|]. split; [by etransitivity|]. intros _ Hk. apply K. by eapply others_rok.
  - destruct (others_more _ _ _ R W) as [W1 S1]. destruct (proj1 all_more _ _ _ _ _ _ Ht W1) as [W2 S2].
    split; [done|]. split; [by etransitivity|]. intros Hp Hk. apply (proj1 all_fine _ _ _ _ _ _ Ht W1 Hp). by eapply others_rok.
  - destruct (others_more _ _ _ R W) as [W1 S1]. destruct (proj1 all_more _ _ _ _ _ _ Ht W1) as [W2 S2].
    split; [done|]. split; [by etransitivity|]. intros Hp Hk. apply (proj1 all_fine _ _ _ _ _ _ Ht W1 Hp). by eapply others_rok.
  - destruct (others_more _ _ _ R1 W) as [W1 S1]. destruct (others_more _ _ _ R2 W1) as [W2 S2].
    split; [exact W2|]. split; [by etransitivity|]. intros Hp Hk.
    assert (rok A1) as K1 by (by eapply others_rok).
    assert (rok (r_unknow F (r_forget F A1))) as K2.
    { apply (forget_rok A1 _ (λ w, w ∈ F)); [done| | | | |done].
      - intros u w Hd Hw. by destruct (HF1 w Hw) as (_ & _ & Q); destruct (Q u).
      - intros u w Hd Hu. unfold r_dep. cbn. apply elem_of_filter. cbn. split; [|done]. split; [done|].
        intros Hw. by destruct (HF1 w Hw) as (_ & _ & Q); destruct (Q u).
      - intros w b. cbn. intros [? ?]%map_filter_lookup_Some. done.
      - intros w Hw. cbn. destruct (r_state A1 !! w) as [v|] eqn:Hv; [by apply map_filter_lookup_Some|].
        apply map_filter_lookup_None. by left. }
    apply (rgrow_rok A2); [by apply rgrow_ext|done|]. by eapply others_rok.
  - destruct (others_more _ _ _ R W) as [W1 S1]. split; [exact W1|]. split; [done|]. intros _ Hk.
    apply (rgrow_rok A1); [by apply rgrow_ext|done|]. by eapply others_rok.
Qed.

Lemma truns_fine l A : truns l A → (∀ x y, (x, y) ∈ l → no_mut x) → rwf A ∧ (rpure A → rok A).
Proof.
  induction 1 as [|l A x y A' Hr IH Hc Hy]; intros Hl.
  - split; [intros o z; cbn; by rewrite lookup_empty|]. intros _ o b. cbn. by rewrite lookup_empty.
  - destruct IH as [W K]; [intros x' y' H; apply (Hl x' y'); by right|].
    destruct (tcall_fine x A y A' (Hl x y (elem_of_list_here _ _)) Hc W) as (W' & S & K'). split; [done|].
    intros Hp. apply K'; [done|]. apply K. by eapply rpure_less.
Qed.
End TransFacts.
