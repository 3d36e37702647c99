(** Lemmas behind Props25.v: builders are dropped exactly when nobody holds them. *)
From Verif Require Export Owned ThreadFacts OwnerFacts.
From stdpp Require Import relations.

Section OwnedFacts.
Context (E : env) (fields : bdef → gset obj) (keep : prog → gset obj → gset obj).
Notation prim := (prim E).
Notation prims := (rtc prim).
Notation r_others := (r_others (e_ask E)).
Notation tget := (tget (e_ask E) (e_kind E)).
Notation tbuild := (tbuild (e_ask E) (e_kind E)).
Notation trun := (trun (e_ask E) (e_kind E)).
Notation tcall := (tcall (e_ask E) (e_kind E)).
Notation parts := (parts fields).
Notation unheld := (unheld fields).
Notation settle := (settle fields).
Notation settled_down := (settled_down fields).
Notation locals := (locals keep).
Notation owns := (owns E fields keep).
Notation fair := (fair E fields keep).
Notation exec_o := (exec_o E fields keep).
Notation build_o := (build_o E fields keep).
Notation step_o := (step_o E fields keep).
Notation may := (may E fields keep).
Notation oruns := (oruns E fields keep).

(** ** What is held, on the reference cache *)
Definition r_stored (A : ref) (w : obj) : Prop :=
  (∃ o b, r_art A !! o = Some b ∧ w ∈ mentions (bin_val b)) ∨ (∃ o v, r_state A !! o = Some v ∧ w ∈ mentions v).
Definition r_part (A : ref) (x y : obj) : Prop := ∃ d a, r_who A !! x = Some (d, a) ∧ y ∈ fields d.

(** Nothing that is held is dropped. *)
Record firm (W : gset obj) (A : ref) : Prop := {
  fm_held : ∀ w, w ∈ W → w ∈ r_live A;
  fm_stored : ∀ w, r_stored A w → w ∈ r_live A;
  fm_part : ∀ u w, u ∈ r_live A → r_part A u w → w ∈ r_live A;
}.
Definition all_fair (A : ref) : Prop :=
  ∀ u d a, r_who A !! u = Some (d, a) → fair d ∧ ∀ w, w ∈ fields d → (w < u)%N.
Definition borne (W : gset obj) (A : ref) (w : obj) : Prop := ∃ x, x ∈ W ∧ rtc (r_part A) x w.
Definition all_borne (W : gset obj) (A : ref) (S : list obj) : Prop := ∀ w, w ∈ S → borne W A w.

Lemma firm_sub W W' A : firm W A → W' ⊆ W → firm W' A.
Proof. intros H Hs. split; [|apply H..]. intros w Hw. by apply (fm_held _ _ H), Hs. Qed.
Lemma firm_more W W' A : firm W A → (∀ w, w ∈ W' → w ∈ r_live A) → firm (W ∪ W') A.
Proof. intros H Hs. split; [|apply H..]. intros w [Hw|Hw]%elem_of_union; [by apply (fm_held _ _ H)|by apply Hs]. Qed.
Lemma borne_live W A w : firm W A → borne W A w → w ∈ r_live A.
Proof.
  intros H (x & Hx & Hp). apply (fm_held _ _ H) in Hx. induction Hp as [x|x y z Hxy _ IH]; [done|].
  apply IH. by eapply (fm_part _ _ H).
Qed.
Lemma part_mono A A' x y : r_who A ⊆ r_who A' → r_part A x y → r_part A' x y.
Proof. intros Hs (d & a & Hx & Hy). exists d, a. split; [|done]. by eapply lookup_weaken. Qed.
Lemma borne_mono W W' A A' w : W ⊆ W' → r_who A ⊆ r_who A' → borne W A w → borne W' A' w.
Proof.
  intros HW Hs (x & Hx & Hp). exists x. split; [by apply HW|]. eapply rtc_subrel; [|exact Hp]. intros y z. by apply part_mono.
Qed.
Lemma all_borne_mono W W' A A' S : W ⊆ W' → r_who A ⊆ r_who A' → all_borne W A S → all_borne W' A' S.
Proof. intros HW Hs H w Hw. eapply borne_mono; [done..|]. by apply H. Qed.

Lemma stored_iff s A w : Inv s → shows s A → w ∈ stored (ch s) ↔ r_stored A w.
Proof.
  intros I H. unfold stored, r_stored. rewrite elem_of_union, !elem_of_union_list.
  assert (∀ a, is_Some (dyn_states (ch s) !! a) → ∃ o d, objs s !! o = Some (d, a) ∧ known (ch s) !! a = Some o) as Hat.
  { intros a Ha. apply (ci_dyn_known _ _ (i_c _ I)) in Ha as [o Hk]. destruct (ci_known_obj _ _ (i_c _ I) _ _ Hk) as [d Ho]. eauto. }
  split.
  - intros [(X & HX & Hw)|(X & HX & Hw)]; apply elem_of_list_fmap in HX as ([a e] & -> & He); apply elem_of_map_to_list in He; cbn in Hw.
    + left. destruct (Hat a) as (o & d & Ho & Hk); [apply (ci_art_dyn _ _ (i_c _ I)); eauto|].
      exists o, (ar_bin e). split; [|done]. rewrite (sh_art _ _ H), (cached_at s o d a Ho Hk), He. done.
    + right. destruct (Hat a) as (o & d & Ho & Hk); [eauto|].
      exists o, (ds_val e). split; [|done]. rewrite (sh_state _ _ H), (state_at s o d a Ho Hk), He. done.
  - intros [(o & b & Hb & Hw)|(o & v & Hv & Hw)].
    + left. rewrite (sh_art _ _ H) in Hb. unfold cached in Hb. destruct (objs s !! o) as [[d a]|]; [|done].
      destruct (decide _) as [Hk|]; [|done]. destruct (artifacts (ch s) !! a) as [e|] eqn:He; [|done]. cbn in Hb. injection Hb as <-.
      eexists. split; [|exact Hw]. apply elem_of_list_fmap. exists (a, e). split; [done|]. by apply elem_of_map_to_list.
    + right. rewrite (sh_state _ _ H) in Hv. unfold state_of in Hv. destruct (objs s !! o) as [[d a]|]; [|done].
      destruct (decide _) as [Hk|]; [|done]. destruct (dyn_states (ch s) !! a) as [e|] eqn:He; [|done]. cbn in Hv. injection Hv as <-.
      eexists. split; [|exact Hw]. apply elem_of_list_fmap. exists (a, e). split; [done|]. by apply elem_of_map_to_list.
Qed.
Lemma parts_iff s A w : shows s A → w ∈ parts s ↔ ∃ u, u ∈ r_live A ∧ r_part A u w.
Proof.
  intros H. unfold Owned.parts, r_part. rewrite elem_of_union_list. setoid_rewrite elem_of_list_fmap. rewrite (sh_live _ _ H), (sh_who _ _ H).
  split.
  - intros (X & (u & -> & Hu) & Hw). apply elem_of_elements in Hu. unfold made in Hw. destruct (objs s !! u) as [[d a]|] eqn:Ho; [|by apply elem_of_empty in Hw].
    exists u. split; [done|]. rewrite Ho. eauto.
  - intros (u & Hu & d & a & Ho & Hw). exists (fields d). split; [|done]. exists u. unfold made. rewrite Ho. split; [done|]. by apply elem_of_elements.
Qed.
Lemma unheld_iff W s A w :
  Inv s → shows s A → w ∈ unheld W s ↔ w ∈ r_live A ∧ w ∉ W ∧ ¬ r_stored A w ∧ ¬ ∃ u, u ∈ r_live A ∧ r_part A u w.
Proof.
  intros I H. unfold Owned.unheld. rewrite elem_of_list_filter, elem_of_elements, (stored_iff s A w I H), (parts_iff s A w H), (sh_live _ _ H). tauto.
Qed.

(** Nobody else is alive. *)
Definition tight (W : gset obj) (A : ref) : Prop :=
  ∀ w, w ∈ r_live A → w ∈ W ∨ r_stored A w ∨ ∃ u, u ∈ r_live A ∧ r_part A u w.

Record kept_by (A A' : ref) : Prop := {
  kb_art : r_art A' = r_art A;
  kb_state : r_state A' = r_state A;
  kb_who : r_who A' = r_who A;
  kb_known : r_known A' = r_known A;
  kb_deps : r_deps A' = r_deps A;
  kb_stray : r_stray A' = r_stray A;
  kb_live : r_live A' ⊆ r_live A;
}.
Lemma kept_refl A : kept_by A A.
Proof. by split. Qed.
Lemma kept_trans A1 A2 A3 : kept_by A1 A2 → kept_by A2 A3 → kept_by A1 A3.
Proof. intros [] []. split; try congruence. by etrans. Qed.
Lemma others_mono (B B' : list obj) A A' : B' ⊆ B → r_others B A A' → r_others B' A A'.
Proof.
  intros HB. apply rtc_subrel. intros x y H. inversion H; subst; constructor; try done. intros ?. by apply H1, HB.
Qed.
Lemma settle_ok n W s A S :
  Inv s → shows s A → stack s = S → firm W A → all_borne W A S → size (alive s) ≤ n →
  ∃ s' A', settle n W s = Some s' ∧ turned E (elements W) s s' ∧ r_others (elements W ++ S) A A' ∧ shows s' A' ∧ firm W A' ∧ kept_by A A' ∧ tight W A'.
Proof.
  revert s A. induction n as [|n IH]; intros s A I H Hst Hf Hb Hn; cbn [Owned.settle].
  { exists s, A. split_and!; [done|apply turned_refl|apply rtc_refl|done|done|by split|].
    intros w Hw. rewrite (sh_live _ _ H) in Hw. assert (size (alive s) = 0) as Hz by lia. apply size_empty_inv in Hz. set_solver. }
  destruct (unheld W s) as [|w l] eqn:Hu.
  { exists s, A. split_and!; [done|apply turned_refl|apply rtc_refl|done|done|by split|].
    intros w Hw. destruct (decide (w ∈ W)) as [?|Hn1]; [by left|]. destruct (decide (w ∈ stored (ch s))) as [Hs|Hn2]; [right; left; by apply (stored_iff s A)|].
    destruct (decide (w ∈ parts s)) as [Hp|Hn3]; [right; right; by apply (parts_iff s A)|]. exfalso.
    assert (w ∈ unheld W s) as Hin; [|rewrite Hu in Hin; by apply elem_of_nil in Hin].
    apply (unheld_iff W s A); [done..|]. rewrite <- (stored_iff s A), <- (parts_iff s A) by done. done. }
  assert (w ∈ unheld W s) as Hw by (rewrite Hu; left). clear Hu.
  apply (unheld_iff W s A w I H) in Hw as (Hl & Hw1 & Hw2 & Hw3).
  assert (w ∉ S) as HwS.
  { intros (x & Hx & Hp)%Hb. destruct (rtc_inv_r _ _ Hp) as [<-|(y & Hy & Hyw)]; [done|].
    apply Hw3. exists y. split; [|done]. apply (borne_live W A y Hf). by exists x. }
  pose proof (drop_iff s A w H) as Hd. destruct (drop_obj w s) as [s1|] eqn:Hdr; [|exfalso; apply Hd; rewrite Hst; done].
  destruct Hd as (_ & _ & H1).
  assert (perform E (elements W) (ADrop w) s = Some (tock s1)) as Hpf.
  { cbn [perform]. rewrite bool_decide_eq_false_2; [by rewrite Hdr|]. by rewrite elem_of_elements. }
  destruct (perform_ok E (elements W) (ADrop w) s (tock s1) A I H Hpf) as (T1 & A1 & R1 & H2).
  pose proof (shows_unique _ _ _ H2 (shows_tock _ _ H1)) as ->.
  assert (firm W (r_tock (r_drop w A))) as Hf1.
  { split; cbn.
    - intros x Hx. apply elem_of_difference. split; [by apply (fm_held _ _ Hf)|]. apply not_elem_of_singleton. by intros ->.
    - intros x Hx. apply elem_of_difference. split; [by apply (fm_stored _ _ Hf)|]. apply not_elem_of_singleton. by intros ->.
    - intros u x [Hul Hun]%elem_of_difference Hx. apply elem_of_difference. split; [by eapply (fm_part _ _ Hf)|].
      apply not_elem_of_singleton. intros ->. apply Hw3. exists u. by split. }
  destruct (IH (tock s1) (r_tock (r_drop w A)) (prims_Inv E _ _ (tu_prims _ _ _ _ T1) I) H2) as (s' & A' & Hs & T2 & R2 & H' & Hf' & K' & Ht).
  - by rewrite (tu_stack _ _ _ _ T1).
  - done.
  - exact Hb.
  - cbn. rewrite <- (sh_live _ _ H1). cbn. rewrite (sh_live _ _ H). rewrite (sh_live _ _ H) in Hl.
    rewrite size_difference by set_solver. rewrite size_singleton. lia.
  - exists s', A'. split; [done|]. split; [by eapply turned_trans|]. split.
    { eapply rtc_l; [|exact R2]. rewrite <- Hst. exact R1. }
    split_and!; [done..| |done]. eapply kept_trans; [|exact K']. split; try done. cbn. set_solver.
Qed.
Lemma settled_ok W s A S :
  Inv s → shows s A → stack s = S → firm W A → all_borne W A S →
  ∃ s' A', settled_down W s = Some s' ∧ turned E (elements W) s s' ∧ r_others (elements W ++ S) A A' ∧ shows s' A' ∧ firm W A' ∧ kept_by A A' ∧ tight W A'.
Proof. intros. by apply settle_ok. Qed.

Lemma firm_live_who s A w : Inv s → shows s A → w ∈ r_live A → ∃ d a, promise w s = Some (d, a).
Proof.
  intros I H Hw. rewrite (sh_live _ _ H) in Hw. destruct (i_alive _ I w Hw) as [[d a] Ho]. exists d, a. by apply promise_Some.
Qed.
Lemma grows_who s s' A A' : grows s s' → shows s A → shows s' A' → r_who A ⊆ r_who A'.
Proof.
  intros [_ G] H H'. rewrite (sh_who _ _ H), (sh_who _ _ H'). apply map_subseteq_spec. intros o x. apply G.
Qed.

(** ** Elementary updates *)
Lemma firm_tock W A : firm W A → firm W (r_tock A).
Proof. intros H. split; apply H. Qed.
Lemma firm_newbin W A : firm W A → firm W (r_newbin A).
Proof. intros H. split; apply H. Qed.
Lemma firm_note W e A : firm W A → firm W (r_note e A).
Proof. intros H. split; apply H. Qed.
Lemma firm_meet W o A : firm W A → firm W (r_meet o A).
Proof. intros H. split; apply H. Qed.
Lemma firm_use W u w A : firm W A → firm W (r_use u w A).
Proof. intros H. split; apply H. Qed.
Lemma firm_spoil W o A : firm W A → firm W (r_spoil o A).
Proof. intros H. split; apply H. Qed.
Lemma firm_put W o v A : firm W A → (∀ w, w ∈ mentions v → w ∈ r_live A) → firm W (r_put o v A).
Proof.
  intros H Hv. split; [apply H| |apply H]. intros w [(x & b & Hx & Hw)|(x & y & Hx & Hw)]; [apply (fm_stored _ _ H); left; eauto|].
  cbn in Hx. destruct (decide (x = o)) as [->|Hne]; [rewrite lookup_insert in Hx; injection Hx as <-; by apply Hv|].
  rewrite lookup_insert_ne in Hx by done. apply (fm_stored _ _ H). right. eauto.
Qed.
Lemma firm_store W o b A : firm W A → (∀ w, w ∈ mentions (bin_val b) → w ∈ r_live A) → firm W (r_store o b A).
Proof.
  intros H Hv. split; [apply H| |apply H]. intros w [(x & y & Hx & Hw)|(x & b' & Hx & Hw)]; [|apply (fm_stored _ _ H); right; eauto].
  cbn in Hx. destruct (decide (x = o)) as [->|Hne]; [rewrite lookup_insert in Hx; injection Hx as <-; by apply Hv|].
  rewrite lookup_insert_ne in Hx by done. apply (fm_stored _ _ H). left. eauto.
Qed.
Lemma firm_write W U o f A : firm W A → U ⊆ W → (∀ v, mentions (f v) ⊆ U ∪ mentions v) → firm W (r_write o f A).
Proof.
  intros H HU Hv. split; [apply H| |apply H]. intros w [(x & y & Hx & Hw)|(x & b' & Hx & Hw)]; [|apply (fm_stored _ _ H); right; eauto].
  cbn in Hx. apply lookup_alter_Some in Hx as [(-> & b & Hb & ->)|[Hne Hx]].
  - cbn in Hw. apply Hv in Hw as [Hw|Hw]%elem_of_union; [by apply (fm_held _ _ H), HU|]. apply (fm_stored _ _ H). left. eauto.
  - apply (fm_stored _ _ H). left. eauto.
Qed.
Lemma firm_less W A A' :
  firm W A → r_live A' = r_live A → r_who A' = r_who A → r_art A' ⊆ r_art A → r_state A' ⊆ r_state A → firm W A'.
Proof.
  intros H El Ew Ha Hs. split.
  - rewrite El. apply H.
  - rewrite El. intros w [(x & y & Hx & Hw)|(x & y & Hx & Hw)]; apply (fm_stored _ _ H); [left|right]; exists x, y; (split; [|done]);
      by eapply lookup_weaken.
  - rewrite El. unfold r_part. rewrite Ew. apply H.
Qed.
Lemma forget_art F A : r_art (r_forget F A) ⊆ r_art A.
Proof. cbn. apply map_filter_subseteq. Qed.
Lemma firm_forget W F A : firm W A → firm W (r_forget F A).
Proof. intros H. apply (firm_less W A); [done..|apply forget_art|done]. Qed.
Lemma firm_unknow W F A : firm W A → firm W (r_unknow F A).
Proof. intros H. apply (firm_less W A); [done..|apply map_filter_subseteq]. Qed.
Lemma firm_prepare W o A : firm W A → firm W (r_prepare o A).
Proof. unfold r_prepare. destruct (decide _); [apply firm_forget|done]. Qed.
Lemma firm_alloc W s A d a M :
  Inv s → shows s A → firm W A → (∀ w, w ∈ M → w ∈ r_live A) → fields d ⊆ M → firm (W ∪ {[r_nobj A]}) (r_alloc d a A).
Proof.
  intros I Hsh H HM Hd. assert (∀ w, w ∈ r_live A → w ∈ r_live (r_alloc d a A)) as Hl by (intros w Hw; cbn; set_solver). split.
  - intros w [Hw|Hw]%elem_of_union; [by apply Hl, (fm_held _ _ H)|]. cbn. set_solver.
  - intros w Hw. by apply Hl, (fm_stored _ _ H).
  - intros u w Hu (d' & a' & Hw & Hx). apply Hl. cbn in Hu, Hw.
    destruct (decide (u = r_nobj A)) as [->|Hne]; [rewrite lookup_insert in Hw; injection Hw as <- <-; by apply HM, Hd|].
    rewrite lookup_insert_ne in Hw by done. apply (fm_part _ _ H u); [set_solver|by exists d', a'].
Qed.
Lemma fair_alloc s A d a M :
  Inv s → shows s A → all_fair A → (∀ w, w ∈ M → w ∈ r_live A) → fields d ⊆ M → fair d → all_fair (r_alloc d a A).
Proof.
  intros I Hsh H HM Hd Hf u d' a' Hw. cbn in Hw. destruct (decide (u = r_nobj A)) as [->|Hne]; [|rewrite lookup_insert_ne in Hw by done; by eapply H].
  rewrite lookup_insert in Hw; injection Hw as <- <-. split; [done|]. intros w Hw. apply Hd, HM in Hw.
  rewrite (sh_live _ _ Hsh) in Hw. destruct (i_alive _ I w Hw) as [x Hx]. apply (i_num _ I) in Hx. by rewrite (sh_nobj _ _ Hsh).
Qed.

(** ** Building *)
Definition mentions_b (r : bres) : gset obj := mentions_res (built_res r).

Definition sound_bo (bld : gset obj → obj → st → outcome bres) : Prop :=
  ∀ B o s d a A, Inv s → shows s A → firm B A → all_fair A → all_borne B A (stack s) → borne B A o →
  promise o s = Some (d, a) → cached s o = None →
  match bld B o s with
  | Done r s' => grows s s' ∧ stack s' = stack s ∧ promise o s' = Some (d, a) ∧ (∀ e, r = BOk e → ar_ty e = bd_aty d) ∧
      ∃ A', tbuild (stack s) o A (Some (built_res r)) A' ∧ shows s' A' ∧ firm (B ∪ mentions_b r) A' ∧ all_fair A'
  | Panic k s' => k = PkUser ∧ Inv s' ∧ ∃ A', tbuild (stack s) o A None A' ∧ shows s' A' ∧ firm B A' ∧ all_fair A'
  | NoFuel => True
  | Illegal => False
  end.

Lemma conv_mentions h b : mentions_rv (conv h b) = mentions (bin_val b).
Proof. by destruct h. Qed.

Lemma get_o_sound bld B h o s A :
  sound_bo bld → Inv s → shows s A → firm B A → all_fair A → all_borne B A (stack s) → borne B A o → how_legal E h = true →
  match get_o E (bld B) h o s with
  | Done r s' => grows s s' ∧ stack s' = stack s ∧
      ∃ A', tget (stack s) h o A (Some r) A' ∧ shows s' A' ∧ firm (B ∪ mentions_rv r) A' ∧ all_fair A'
  | Panic k s' => k = PkUser ∧ Inv s' ∧ ∃ A', tget (stack s) h o A None A' ∧ shows s' A' ∧ firm B A' ∧ all_fair A'
  | NoFuel => True
  | Illegal => False
  end.
Proof.
  intros Hb I H Hf Hg Hst Ho Hh. pose proof (borne_live _ _ _ Hf Ho) as Hl.
  destruct (firm_live_who s A o I H Hl) as (d & a & Hp).
  unfold get_o, get_with. rewrite Hp, Hh. apply legal_iff in Hh. rewrite (lookup_art_ok _ o s d a I Hp).
  pose proof (live_cached s o d a I Hp) as Hc. pose proof (sh_art _ _ H o) as Hra.
  destruct (artifacts (ch s) !! a) as [e|] eqn:He; cbn in Hc.
  - do 2 (split; [done|]). exists A. split; [apply tget_hit; [done..|congruence]|]. split; [done|]. split; [|done].
    rewrite conv_mentions. apply firm_more; [done|]. intros w Hw. apply (fm_stored _ _ Hf). left. exists o, (ar_bin e). split; [congruence|done].
  - pose proof (Hb B o s d a A I H Hf Hg Hst Ho Hp Hc) as X.
    destruct (bld B o s) as [[e|e] s2|pk s2| |] eqn:Hbo; try done.
    + destruct X as (G & Hs & _ & Hty & A' & Hr & H' & Hf' & Hg'). rewrite (Hty e eq_refl), N.eqb_refl.
      do 2 (split; [done|]). exists A'. split; [eapply tget_built; [done..|congruence|exact Hr]|]. split; [done|]. split; [|done].
      rewrite conv_mentions. exact Hf'.
    + destruct X as (G & Hs & _ & _ & A' & Hr & H' & Hf' & Hg').
      do 2 (split; [done|]). exists A'. split; [eapply tget_failed; [done..|congruence|exact Hr]|]. done.
    + destruct X as (-> & I' & A' & Hr & H' & Hf' & Hg'). do 2 (split; [done|]). exists A'. split; [eapply tget_panicked; [done..|congruence|exact Hr]|]. done.
Qed.

Lemma resolve_o_sound bld B u du ua S h w s A :
  sound_bo bld → Inv s → shows s A → firm B A → all_fair A → stack s = u :: S → all_borne B A (u :: S) → borne B A w →
  objs s !! u = Some (du, ua) → how_legal E h = true →
  let A0 := r_note (EResolve u w) (r_use u w (r_meet w A)) in
  match resolve_o E (bld B) u ua h w s with
  | Done r s' => grows s s' ∧ stack s' = u :: S ∧
      ∃ A', tget (u :: S) h w A0 (Some r) A' ∧ shows s' (r_note (EGot u w r) A') ∧ firm (B ∪ mentions_rv r) (r_note (EGot u w r) A') ∧ all_fair A'
  | Panic k s' => k = PkUser ∧ Inv s' ∧ ∃ A', tget (u :: S) h w A0 None A' ∧ shows s' A' ∧ firm B A' ∧ all_fair A'
  | NoFuel => True
  | Illegal => False
  end.
Proof.
  intros Hb I H Hf Hg Hst HS Hw Hu Hh A0. destruct (firm_live_who s A w I H (borne_live _ _ _ Hf Hw)) as (d & wa & Hp).
  unfold resolve_o, resolve_with. rewrite Hp.
  destruct (shows_track E s A u S du ua w d wa I H Hst Hu Hp) as (c & -> & P1 & H1).
  pose proof (prims_grows E _ _ I P1) as G0. pose proof (proj1 G0) as I1. set (s1 := log (EResolve u w) (set_ch c s)) in *. fold A0 in H1.
  assert (stack s1 = u :: S) as Hst1 by exact Hst.
  pose proof (get_o_sound bld B h w s1 A0 Hb I1 H1) as X. rewrite Hst1 in X. unfold get_o in X.
  specialize (X ltac:(by apply firm_note, firm_use, firm_meet) Hg HS Hw Hh).
  destruct (get_with E (bld B) h w s1) as [r s2|k s2| |]; try done.
  destruct X as (G1 & Hst2 & A' & Hr & H2 & Hf2 & Hg2).
  split; [eapply grows_trans; [exact G0|]; eapply grows_trans; [exact G1|]; split; [by apply Inv_log, G1|done]|].
  split; [done|]. exists A'. split_and!; [done|by apply shows_log|exact (firm_note _ (EGot u w r) A' Hf2)|done].
Qed.

Lemma locals_sub p L : locals p L ⊆ L.
Proof. unfold Owned.locals. set_solver. Qed.

Lemma run_o_sound bld u du ua S B :
  sound_bo bld → ∀ p L s A, Inv s → shows s A → firm (B ∪ L) A → all_fair A → stack s = u :: S → all_borne B A (u :: S) →
  objs s !! u = Some (du, ua) → owns (fields du) L p →
  match exec_o bld u ua (bd_sty du) B L p s with
  | Done r s' => grows s s' ∧ stack s' = u :: S ∧
      ∃ A', trun (u :: S) u p A (Some r) A' ∧ shows s' A' ∧ firm (B ∪ mentions_res r) A' ∧ all_fair A'
  | Panic k s' => k = PkUser ∧ Inv s' ∧ ∃ A', trun (u :: S) u p A None A' ∧ shows s' A' ∧ firm B A' ∧ all_fair A'
  | NoFuel => True
  | Illegal => False
  end.
Proof.
  intros Hb p.
  induction p as [r| |h w k IH|k IH|v p IH|k IH|v k IH|d k IH|w p IH]; intros L0 s0 A0 I0 H0 Hf0 Hg0 Hst0 HS0 Hu0 Ho;
    cbn [Owned.exec_o]; cbn zeta;
    match goal with |- context [locals ?x L0] => set (q := x) in *; pose proof (locals_sub q L0) as HL; set (L := locals q L0) in * end;
    (destruct (settled_ok (B ∪ L) s0 A0 (u :: S) I0 H0 Hst0) as (s & A & -> & T1 & R1 & H & Hf & [K1 K2 K3 K4 K5 K6 K7] & _);
      [eapply firm_sub; [exact Hf0|set_solver]|eapply all_borne_mono; [|done|exact HS0]; set_solver|]);
    (apply (others_mono _ (u :: S)) in R1; [|by intros ? ?; apply elem_of_app; right]);
    pose proof (prims_Inv E _ _ (tu_prims _ _ _ _ T1) I0) as I; pose proof (prims_grows E _ _ I0 (tu_prims _ _ _ _ T1)) as G0;
    assert (stack s = u :: S) as Hst by (by rewrite (tu_stack _ _ _ _ T1));
    pose proof (tu_objs _ _ _ _ T1 _ _ Hu0) as Hu;
    assert (all_fair A) as Hg by (unfold all_fair; rewrite K3; exact Hg0);
    assert (all_borne B A (u :: S)) as HS by (eapply all_borne_mono; [done| |exact HS0]; by rewrite K3);
    (assert (∀ w, w ∈ fields du ∪ L → borne (B ∪ L) A w ∧ w ∈ r_live A) as HM;
    [(intros w' Hw'; assert (borne (B ∪ L) A w') as Hbw; [|split; [done|by eapply borne_live]];
      apply elem_of_union in Hw' as [Hw'|Hw']; [|exists w'; split; [set_solver|apply rtc_refl]];
      destruct (HS u ltac:(left)) as (x & Hx & Hp); exists x; split; [set_solver|]; eapply rtc_r; [exact Hp|]; exists du, ua; split; [|done];
      by rewrite (sh_who _ _ H))|]);
    cbn [Owned.owns] in Ho; cbn zeta in Ho; fold q in Ho; fold L in Ho;
    clear K1 K2 K3 K4 K5 K6 K7 T1 Hf0 Hg0 HS0 Hu0 H0 Hst0 I0.
  - split; [done|]. split; [done|]. exists A. split; [eapply trun_others; [exact R1|constructor]|]. split; [done|]. split; [|done].
    apply firm_more; [eapply firm_sub; [exact Hf|set_solver]|]. intros w Hw. by apply HM, Ho.
  - split; [done|]. split; [done|]. exists A. split; [eapply trun_others; [exact R1|constructor]|]. split; [done|]. split; [|done].
    eapply firm_sub; [exact Hf|set_solver].
  - destruct Ho as (Hw & Hh & Ho). destruct (HM w Hw) as [Hbw _].
    pose proof (resolve_o_sound bld (B ∪ L) u du ua S h w s A Hb I H Hf Hg Hst ltac:(eapply all_borne_mono; [|done|exact HS]; set_solver) Hbw Hu Hh) as X.
    cbn zeta in X. destruct (resolve_o E (bld (B ∪ L)) u ua h w s) as [r s1|pk s1| |]; try done.
    + destruct X as (G1 & Hst1 & A1 & Hr1 & H1 & Hf1 & Hg1).
      pose proof (IH r (L ∪ mentions_rv r) s1 _ (proj1 G1) H1 ltac:(eapply firm_sub; [exact Hf1|set_solver]) Hg1 Hst1) as X.
      specialize (X ltac:(eapply all_borne_mono; [done| |exact HS]; exact (grows_who s s1 A _ G1 H H1)) (proj2 G1 _ _ Hu) (Ho r)).
      destruct (exec_o bld u ua (bd_sty du) B _ (k r) s1) as [r' s2|pk s2| |]; try done.
      * destruct X as (G2 & Hst2 & A2 & Y & Z & F2 & Q2). split; [exact (grows_trans _ _ _ G0 (grows_trans _ _ _ G1 G2))|]. split; [done|]. exists A2.
        split; [|done]. eapply trun_others; [exact R1|]. by eapply trun_resolve.
      * destruct X as (-> & I2 & A2 & Y & Z & F2 & Q2). do 2 (split; [done|]). exists A2. split; [|done]. eapply trun_others; [exact R1|]. by eapply trun_resolve.
    + destruct X as (-> & I1 & A1 & Hr1 & H1 & Hf1 & Hg1). do 2 (split; [done|]). exists A1.
      split; [eapply trun_others; [exact R1|]; by eapply trun_resolve_panic|]. split; [done|]. split; [|done]. eapply firm_sub; [exact Hf1|set_solver].
  - destruct (my_state_at E s u S du ua I Hst Hu) as (v & -> & Hv & _).
    assert (r_state A !! u = Some v) as Hv' by (by rewrite (sh_state _ _ H)).
    pose proof (IH v (L ∪ mentions v) s A I H) as X.
    specialize (X ltac:(rewrite (assoc_L (∪)); apply firm_more; [done|]; intros w Hw; apply (fm_stored _ _ Hf); right; eauto) Hg Hst HS Hu (Ho v)).
    destruct (exec_o bld u ua (bd_sty du) B _ (k v) s) as [r' s2|pk s2| |]; try done.
    * destruct X as (G2 & Hst2 & A2 & Y & Z). split; [exact (grows_trans _ _ _ G0 G2)|]. split; [done|]. exists A2. split; [|done].
      eapply trun_others; [exact R1|]. by eapply trun_state.
    * destruct X as (-> & I2 & A2 & Y & Z). do 2 (split; [done|]). exists A2. split; [|done]. eapply trun_others; [exact R1|]. by eapply trun_state.
  - destruct Ho as [Hv Ho]. destruct (my_state_at E s u S du ua I Hst Hu) as (v' & -> & _ & Hk & Hd).
    set (s1 := set_ch _ s). assert (prim s s1) as P1 by (eapply pm_set; eauto). pose proof (prims_grows E _ _ I (rtc_once _ _ P1)) as G1.
    assert (shows s1 (r_put u v A)) as H1 by (by eapply shows_put).
    pose proof (IH L s1 (r_put u v A) (proj1 G1) H1 ltac:(apply firm_put; [done|]; intros w Hw; by apply HM, Hv) Hg Hst HS Hu Ho) as X.
    destruct (exec_o bld u ua (bd_sty du) B _ p s1) as [r' s2|pk s2| |]; try done.
    * destruct X as (G2 & Hst2 & A2 & Y & Z). split; [exact (grows_trans _ _ _ G0 (grows_trans _ _ _ G1 G2))|]. split; [done|]. exists A2. split; [|done].
      eapply trun_others; [exact R1|]. by eapply trun_set.
    * destruct X as (-> & I2 & A2 & Y & Z). do 2 (split; [done|]). exists A2. split; [|done]. eapply trun_others; [exact R1|]. by eapply trun_set.
  - assert (prim s (tock s)) as P1 by constructor. rewrite <- (sh_tick _ _ H). pose proof (prims_grows E _ _ I (rtc_once _ _ P1)) as G1.
    pose proof (IH (e_ask E (r_tick A)) L (tock s) (r_tock A) (proj1 G1) (shows_tock _ _ H) (firm_tock _ _ Hf) Hg Hst HS Hu (Ho _)) as X.
    destruct (exec_o bld u ua (bd_sty du) B _ _ (tock s)) as [r' s2|pk s2| |]; try done.
    * destruct X as (G2 & Hst2 & A2 & Y & Z). split; [exact (grows_trans _ _ _ G0 (grows_trans _ _ _ G1 G2))|]. split; [done|]. exists A2. split; [|done].
      eapply trun_others; [exact R1|]. by eapply trun_ask.
    * destruct X as (-> & I2 & A2 & Y & Z). do 2 (split; [done|]). exists A2. split; [|done]. eapply trun_others; [exact R1|]. by eapply trun_ask.
  - assert (prim s (set_nbin (N.succ (nbin s)) s)) as P1 by constructor. pose proof (prims_grows E _ _ I (rtc_once _ _ P1)) as G1.
    pose proof (IH (Bin (nbin s) v) L _ _ (proj1 G1) (shows_newbin s A H) (firm_newbin _ _ Hf) Hg Hst HS Hu (Ho _)) as X.
    destruct (exec_o bld u ua (bd_sty du) B _ _ _) as [r' s2|pk s2| |]; try done.
    * destruct X as (G2 & Hst2 & A2 & Y & Z). split; [exact (grows_trans _ _ _ G0 (grows_trans _ _ _ G1 G2))|]. split; [done|]. exists A2. split; [|done].
      eapply trun_others; [exact R1|]. eapply trun_newbin. by rewrite (sh_nbin _ _ H).
    * destruct X as (-> & I2 & A2 & Y & Z). do 2 (split; [done|]). exists A2. split; [|done]. eapply trun_others; [exact R1|].
      eapply trun_newbin. by rewrite (sh_nbin _ _ H).
  - pose proof (alloc_iff E s A d I H) as Ha. destruct (alloc E d s) as [[o s1]|] eqn:Hal; [|done].
    destruct Ha as (Hfr & -> & H1). assert (prim s s1) as P1 by (eapply pm_alloc; exact Hal).
    assert (stack s1 = stack s) as Hst1 by (by apply alloc_Some in Hal as (_ & -> & _)). pose proof (prims_grows E _ _ I (rtc_once _ _ P1)) as G1.
    assert (fields d ⊆ fields du ∪ L ∧ fair d ∧ ∀ o, owns (fields du) (L ∪ {[o]}) (k o)) as (Hd & Hfd & Hok).
    { destruct d as [aty sty ini body]. destruct Ho as ((Ho1 & Ho2 & Ho3) & Ho4). split; [exact Ho1|]. split; [split; [exact Ho2|exact Ho3]|exact Ho4]. }
    pose proof (IH (r_nobj A) (L ∪ {[r_nobj A]}) s1 _ (proj1 G1) H1) as X.
    specialize (X ltac:(rewrite (assoc_L (∪)); eapply (firm_alloc _ s A); [done..|intros w Hw; by apply HM|exact Hd])
      ltac:(eapply (fair_alloc s A); [done..|intros w Hw; by apply HM|exact Hd|done]) ltac:(by rewrite Hst1)
      ltac:(eapply all_borne_mono; [done| |exact HS]; exact (grows_who s s1 A _ G1 H H1)) (proj2 G1 _ _ Hu) (Hok _)).
    destruct (exec_o bld u ua (bd_sty du) B _ (k (r_nobj A)) s1) as [r' s2|pk s2| |]; try done.
    * destruct X as (G2 & Hst2 & A2 & Y & Z). split; [exact (grows_trans _ _ _ G0 (grows_trans _ _ _ G1 G2))|]. split; [done|]. exists A2. split; [|done].
      eapply trun_others; [exact R1|]. by eapply trun_new.
    * destruct X as (-> & I2 & A2 & Y & Z). do 2 (split; [done|]). exists A2. split; [|done]. eapply trun_others; [exact R1|]. by eapply trun_new.
  - done.
Qed.

Lemma fair_init u d a A w : all_fair A → r_who A !! u = Some (d, a) → w ∈ mentions_opt (bd_init d) → w ∈ fields d.
Proof. intros H Hu Hw. destruct (H u d a Hu) as [[Hf _] _]. by apply Hf. Qed.

Lemma build_o_sound n : sound_bo (build_o n).
Proof.
  induction n as [|n IHn]; intros B o s d a A I H Hf Hg HS Hbo Hp Hc; cbn [Owned.build_o]; [done|].
  rewrite Hp. pose proof (promise_Some o s d a) as [Hp' _]. destruct (Hp' Hp) as [Hal Ho]. clear Hp'.
  assert (r_who A !! o = Some (d, a)) as Hwho by (by rewrite (sh_who _ _ H)).
  assert (o ∈ r_live A) as Hl by (by rewrite (sh_live _ _ H)).
  destruct (Hg o d a Hwho) as [[Hfi Hfb] _].
  assert (∀ v w, r_state A !! o = Some v ∨ r_state A !! o = None ∧ bd_init d = Some v → w ∈ mentions v → w ∈ r_live A) as Hvl.
  { intros v w [Hv|[_ Hv]] Hw; [apply (fm_stored _ _ Hf); right; eauto|]. apply (fm_part _ _ Hf o); [done|]. exists d, a. split; [done|].
    apply Hfi. by rewrite Hv. }
  destruct d as [aty sty ini body].
  pose proof (cached_None s o _ a I Hp Hc) as Ha.
  unfold contains_artifact. rewrite Ha. rewrite bool_decide_eq_false_2 by (by intros [? ?]). rewrite andb_false_r.
  destruct (build_start E o s _ a A I H Hp Hc) as (c2 & Hst). cbn [bd_sty bd_init] in Hst.
  destruct (r_addr_at s A o _ a H Ho) as (_ & Hdef & _).
  pose proof (sh_state _ _ H o) as Hrs.
  assert (state_of s o = None ∧ ini = None ∨ ∃ v, (state_of s o = Some v ∨ state_of s o = None ∧ ini = Some v) ∧
      ensure_dyn_state a o sty ini (make_known a o (ch s)) = (c2, inr v) ∧
      let s1 := log (ECall o) (set_reent (reent s || bool_decide (o ∈ stack s)) (set_stack (o :: stack s) (set_ch c2 s))) in
      prims s s1 ∧ Inv s1 ∧ shows s1 (r_note (ECall o) (r_put o v (r_meet o A)))) as [[Hn Hi]|(v & Hv & -> & P1 & I1 & H1)].
  { destruct (state_of s o) as [v|], ini as [v'|]; [right; done..|left; done]. }
  - subst ini. rewrite Hn in Hst. destruct Hst as [He H1]. rewrite He. split; [done|].
    split; [|exists (r_meet o A); split; [by eapply tbuild_noinit; [exact Hdef|congruence|]|]; split; [done|]; split; [by apply firm_meet|done]].
    assert (c2 = make_known a o (ch s)) as ->.
    { unfold ensure_dyn_state in He. rewrite make_known_idem in He. by destruct (dyn_states _ !! a) as [dv|]; [destruct (_ =? _)%N|]; injection He as <-. }
    eapply (prim_Inv E); [|exact I]. by eapply pm_know.
  - assert (r_state A !! o = Some v ∨ r_state A !! o = None ∧ bd_init (BDef aty sty ini body) = Some v) as Hv' by (by rewrite Hrs).
    pose proof (prims_grows E _ _ I P1) as G1. cbn zeta. set (s1 := log _ _) in *. set (A1 := r_note _ _) in *.
    assert (firm (B ∪ ∅) A1) as Hf1.
    { rewrite (right_id_L ∅ (∪)). apply (firm_note B (ECall o)), firm_put; [by apply firm_meet|]. intros w Hw. by eapply Hvl. }
    pose proof (run_o_sound (build_o n) o (BDef aty sty ini body) a (stack s) B IHn body ∅ s1 A1 I1 H1 Hf1 Hg eq_refl) as X.
    specialize (X ltac:(intros w [->|Hw]%elem_of_cons; [exact Hbo|by apply HS]) Ho Hfb). cbn [bd_sty] in X.
    destruct (exec_o (build_o n) o a sty B ∅ body s1) as [[b|e] s2|k s2| |] eqn:Hx; try done.
    + destruct X as ([I2 G2] & Hst2 & A2 & Y & Z & F2 & Q2).
      assert (objs s2 !! o = Some (BDef aty sty ini body, a)) as Ho2 by (by apply G2).
      destruct (my_state_at E s2 o (stack s) _ a I2 Hst2 Ho2) as (_ & _ & _ & Hk2 & _).
      cbn [artifacts set_artifacts]. rewrite lookup_insert.
      assert (prim s2 (set_stack (stack s) (log (EBuilt o b) (set_ch (set_artifacts <[a:=Art aty b]> (ch s2)) s2)))) as P3.
      { exact (pm_ok E s2 o (BDef aty sty ini body) a (stack s) b Hst2 Ho2). }
      split; [eapply grows_trans; [exact G1|]; eapply grows_trans; [split; [exact I2|exact G2]|]; exact (prims_grows E _ _ I2 (rtc_once _ _ P3))|].
      split; [done|]. split.
      { apply promise_Some. split; [|exact Ho2]. cbn. apply (i_stack _ I2). rewrite Hst2. left. }
      split; [intros e [= <-]; done|]. exists (r_note (EBuilt o b) (r_store o b A2)). split; [|split; [|split]].
      * eapply tbuild_ok; [exact Hdef|exact Hv'|exact Y].
      * apply shows_stack, shows_log. exact (shows_store s2 A2 o _ a aty b I2 Z Ho2 Hk2).
      * apply (firm_note _ (EBuilt o b)), firm_store; [exact F2|]. intros w Hw. apply (fm_held _ _ F2). by apply elem_of_union_r.
      * exact Q2.
    + destruct X as ([I2 G2] & Hst2 & A2 & Y & Z & F2 & Q2).
      assert (objs s2 !! o = Some (BDef aty sty ini body, a)) as Ho2 by (by apply G2).
      assert (prim s2 (set_stack (stack s) (log (EFailed o e) s2))) as P3 by exact (pm_fail E s2 o (stack s) e Hst2).
      split; [eapply grows_trans; [exact G1|]; eapply grows_trans; [split; [exact I2|exact G2]|]; exact (prims_grows E _ _ I2 (rtc_once _ _ P3))|].
      split; [done|]. split.
      { apply promise_Some. split; [|exact Ho2]. cbn. apply (i_stack _ I2). rewrite Hst2. left. }
      split; [done|]. eexists. split; [eapply tbuild_err; [exact Hdef|exact Hv'|exact Y]|]. split; [by apply shows_stack, shows_log|].
      split; [by apply (firm_note _ (EFailed o e))|exact Q2].
    + destruct X as (-> & I2 & A2 & Y & Z & F2 & Q2). do 2 (split; [done|]).
      exists A2. split; [eapply tbuild_panic; [exact Hdef|exact Hv'|exact Y]|]. done.
Qed.

End OwnedFacts.
