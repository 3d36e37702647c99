(** The model of the code refines the reference cache: the calls. *)
From Verif Require Export RefBuild MutOps GcFacts.
From stdpp Require Import relations.

Lemma rtc_iff {X} (R R' : relation X) x y : (∀ a b, R a b ↔ R' a b) → rtc R x y ↔ rtc R' x y.
Proof.
  intros H. split; induction 1; [done|eapply rtc_l; [by apply H|done]|done|eapply rtc_l; [by apply H|done]].
Qed.

Lemma affected_iff s A o F : shows s A → r_affected A o F ↔ ∀ w, w ∈ F ↔ affected s o w.
Proof.
  intros H. unfold r_affected, affected. split; intros HF w; rewrite HF.
  - apply rtc_iff. intros x y. apply (sh_deps _ _ H).
  - symmetry. apply rtc_iff. intros x y. apply (sh_deps _ _ H).
Qed.

Lemma affected_ex s A o :
  Inv s → shows s A → o ∈ r_live A → ∃ F, r_affected A o F.
Proof.
  intros I H Hl. destruct (get_live s A o I H Hl) as (d & a & Hp).
  destruct (invalidate_ok true (λ _ _, 0%N) a (ch s) (ci_sync _ _ (i_c _ I))) as (C & _ & _ & _ & HC).
  pose proof (affected_C s o d a C I Hp HC) as HaC.
  exists ({[o]} ∪ filter (λ w, match r_addr A w with Some wa => bool_decide (wa ∈ C) | None => false end = true) (r_known A)).
  apply (affected_iff s A o _ H). intros w. rewrite elem_of_union, elem_of_singleton, elem_of_filter, (sh_known _ _ H). split.
  - intros [->|[Hb Hk]]; [apply rtc_refl|]. destruct Hk as (dw & wa & Hw & Hkw).
    destruct (r_addr_at s A w dw wa H Hw) as (Ha & _). rewrite Ha in Hb. apply bool_decide_eq_true in Hb.
    eapply (HaC w dw wa); [done| |done]. by exists dw, wa.
  - intros Haf. destruct (decide (w = o)) as [->|Hne]; [by left|]. right.
    assert (knows s w) as Hk.
    { apply rtc_inv_r in Haf as [?|(z & _ & Hz)]; [congruence|]. by apply depends_knows in Hz as [? _]. }
    split; [|done]. destruct Hk as (dw & wa & Hw & Hkw). destruct (r_addr_at s A w dw wa H Hw) as (-> & _).
    apply bool_decide_eq_true. eapply (HaC w dw wa); [done| |done]. by exists dw, wa.
Qed.

Lemma garbage_ex A : ∃ F, r_garbage A F.
Proof.
  exists (filter (λ w, w ∉ r_live A ∧ w ∉ (set_map snd (r_deps A) : gset obj)) (r_known A)).
  intros w. rewrite elem_of_filter, elem_of_map. split.
  - intros ((H1 & H2) & H3). split_and!; [done..|]. intros u Hu. apply H2. by exists (u, w).
  - intros (H1 & H2 & H3). split_and!; [done| |done]. intros ([u w'] & -> & Hu). by apply (H3 u).
Qed.

Lemma stray_pruned ob c (C K : gset addr) a c' x :
  CInv ob c → pruned c C K ∅ c' → a ∈ C → (∀ x, x ∈ C → x = a ∨ ∃ y, dep_rel c y x) → K ⊆ {[a]} →
  (x ∈ leafs c' ∧ known c' !! x = None) ↔ (x ∈ leafs c ∧ known c !! x = None) ∨ (x = a ∧ (known c !! a = None ∨ a ∈ K)).
Proof.
  intros I Hp Ha HC HK. rewrite (pn_leafs _ _ _ _ _ Hp), (pn_known _ _ _ _ _ Hp).
  assert (∀ x y, dep_rel c x y → known c !! x ≠ None ∧ known c !! y ≠ None) as Hed.
  { intros z y Hd. destruct (ci_edge_known _ _ I z y Hd) as [[? ->] [? ->]]. done. }
  assert (x ∉ (∅ : gset addr)) as Hem by set_solver.
  destruct (decide (x ∈ K)) as [Hx|Hx].
  - rewrite bool_decide_eq_true_2 by done. assert (x = a) as -> by set_solver. naive_solver.
  - rewrite bool_decide_eq_false_2 by done. split.
    + intros [[_ [Hl|[Hc|[(y & Hy & Hd) _]]]] Hk]; [by left| |by apply Hed in Hd as [? _]].
      destruct (HC x Hc) as [->|(y & Hd)]; [by right; auto|]. by apply Hed in Hd as [_ ?].
    + intros [[Hl Hk]|[-> [Hk|Hk]]]; [by auto..|done].
Qed.

Lemma closure_from c a (C : gset addr) : (∀ x, x ∈ C ↔ rtc (dep_rel c) a x) → ∀ x, x ∈ C → x = a ∨ ∃ y, dep_rel c y x.
Proof. intros HC x Hx%HC. apply rtc_inv_r in Hx as [<-|(y & _ & ?)]; [by left|right; eauto]. Qed.

Lemma shows_forget s A s' F (F0 : obj → Prop) st' n' l' :
  shows s A → forgets s F0 (λ _, False) s' → (∀ w, w ∈ F ↔ F0 w) →
  (∀ a, a ∈ st' ↔ a ∈ leafs (ch s') ∧ known (ch s') !! a = None) →
  nobj s' = nobj s → nbin s' = nbin s → n' = tick s' → l' = trace s' →
  shows s' (let B := r_forget F A in
    Ref (r_art B) (r_state B) (r_known B) (r_deps B) st' (r_who B) (r_live B) (r_nobj B) (r_nbin B) n' l').
Proof.
  intros H Hf HF Hst Hno Hnb Hn Hl.
  pose proof (shows_forgets s A s' F ∅ F0 (λ _, False) st' n' l' H Hf HF) as Hx.
  rewrite r_unknow_empty in Hx. apply Hx; try done.
Qed.

Lemma r_known_addr s A o d a : Inv s → shows s A → promise o s = Some (d, a) → (o ∈ r_known A ↔ known (ch s) !! a = Some o) ∧ (o ∉ r_known A ↔ known (ch s) !! a = None).
Proof.
  intros I H Hp. apply promise_Some in Hp as Hp'. destruct Hp' as [_ Ho].
  assert (o ∈ r_known A ↔ known (ch s) !! a = Some o) as Hk.
  { rewrite (sh_known _ _ H). split; [intros Hk; by eapply knows_at|]. intros Hk. by exists d, a. }
  split; [done|]. rewrite Hk. destruct (known (ch s) !! a) as [z|] eqn:Hz; [|naive_solver].
  split; [|done]. intros Hn. exfalso. apply Hn. f_equal. exact (Inv_known_is s o d a z I Hp Hz).
Qed.

Lemma spoil_stray s A o d a x B :
  Inv s → shows s A → promise o s = Some (d, a) → r_known B = r_known A → r_who B = r_who A → r_stray B = r_stray A →
  x ∈ r_stray (r_spoil o B) ↔ (x ∈ leafs (ch s) ∧ known (ch s) !! x = None) ∨ (x = a ∧ known (ch s) !! a = None).
Proof.
  intros I H Hp H1 H2 H3. cbn. rewrite H1, H3.
  assert (r_addrs B o = {[a]}) as ->.
  { unfold r_addrs, r_addr. rewrite H2. apply promise_Some in Hp as [_ Ho]. rewrite (sh_who _ _ H), Ho. done. }
  destruct (r_known_addr s A o d a I H Hp) as [Hk1 Hk2].
  destruct (decide (o ∈ r_known A)) as [Hk|Hk].
  - apply Hk1 in Hk. rewrite (sh_stray _ _ H). naive_solver.
  - apply Hk2 in Hk. rewrite elem_of_union, elem_of_singleton, (sh_stray _ _ H). naive_solver.
Qed.

Section RefCalls.
Context (E : env).
Notation prim := (prim E).
Notation rbuild := (rbuild (e_ask E) (e_kind E)).
Notation rget := (rget (e_ask E) (e_kind E)).
Notation rcall := (rcall (e_ask E) (e_kind E)).

(** ** invalidate, purge, garbage collection, clear *)
Lemma invalidate_shows s A o d a F :
  Inv s → shows s A → promise o s = Some (d, a) → r_affected A o F →
  ∃ c, invalidate_by_id (e_dbg E) (prio E s 0) a (ch s) = COk c ∧
    shows (log (EInvalidate o) (tock (set_ch c s))) (r_note (EInvalidate o) (r_tock (r_spoil o (r_forget F A)))).
Proof.
  intros I H Hp HF. rewrite (affected_iff s A o F H) in HF.
  destruct (invalidate_ok (e_dbg E) (prio E s 0) a (ch s) (ci_sync _ _ (i_c _ I))) as (C & c & Heq & Hpr & HC).
  exists c. split; [done|].
  assert (forgets s (affected s o) (λ _, False) (log (EInvalidate o) (tock (set_ch c s)))) as Hf.
  { eapply (pruned_forgets s _ C ∅ ∅); try done. by eapply affected_C. }
  apply (shows_forget s A _ F (affected s o) (r_stray (r_spoil o (r_forget F A)))); try done.
  - intros x. rewrite (spoil_stray s A o d a x (r_forget F A) I H Hp eq_refl eq_refl eq_refl). cbn.
    rewrite (stray_pruned (objs s) (ch s) C ∅ a c x (i_c _ I) Hpr).
    + set_solver.
    + apply HC, rtc_refl.
    + by apply closure_from.
    + set_solver.
  - cbn. by rewrite (sh_tick _ _ H).
  - cbn. by rewrite (sh_log _ _ H).
Qed.

Lemma purge_shows s A o d a F :
  Inv s → shows s A → promise o s = Some (d, a) → r_affected A o F →
  ∃ c, purge (e_dbg E) (prio E s 0) a (ch s) = COk c ∧
    shows (log (EInvalidate o) (tock (set_ch c s))) (r_note (EInvalidate o) (r_tock (r_spoil o (r_unknow {[o]} (r_forget F A))))).
Proof.
  intros I H Hp HF. rewrite (affected_iff s A o F H) in HF.
  destruct (purge_ok (e_dbg E) (prio E s 0) a (ch s) (ci_sync _ _ (i_c _ I))) as (C & c & Heq & Hpr & HC).
  exists c. split; [done|].
  assert (forgets s (affected s o) (eq o) (log (EInvalidate o) (tock (set_ch c s)))) as Hf.
  { eapply (pruned_forgets s _ C {[a]} ∅); try done.
    - intros x ->%elem_of_singleton. apply HC. apply rtc_refl.
    - by eapply affected_C.
    - intros w dw wa Hw Hk. rewrite elem_of_singleton. split.
      + intros ->. symmetry. eapply (Inv_known_is s o d a w); [done..|]. by eapply knows_at.
      + intros <-. apply promise_Some in Hp as [_ Hp]. unfold at_addr in Hw. congruence. }
  apply (shows_forgets s A _ F {[o]} (affected s o) (eq o) (r_stray (r_spoil o (r_unknow {[o]} (r_forget F A))))); try done.
  - intros w. rewrite elem_of_singleton. naive_solver.
  - intros x. cbn. rewrite (stray_pruned (objs s) (ch s) C {[a]} a c x (i_c _ I) Hpr).
    + rewrite decide_False by set_solver. destruct (r_addr_at s A o d a H) as (_ & _ & Hra); [by apply promise_Some in Hp as [_ ?]|].
      unfold r_addrs, r_addr in *. cbn. rewrite Hra, elem_of_union, elem_of_singleton, (sh_stray _ _ H). set_solver.
    + apply HC, rtc_refl.
    + by apply closure_from.
    + set_solver.
  - cbn. by rewrite (sh_tick _ _ H).
  - cbn. by rewrite (sh_log _ _ H).
Qed.

Lemma stray_sub s A : shows s A → r_stray A = ∅ ↔ leafs (ch s) ⊆ dom (known (ch s)).
Proof.
  intros H. split.
  - intros Hs x Hx. apply elem_of_dom. destruct (known (ch s) !! x) eqn:Hk; [eauto|]. exfalso.
    assert (x ∈ r_stray A) by (by apply (sh_stray _ _ H)). set_solver.
  - intros Hs. apply set_eq. intros x. split; [|set_solver]. intros [Hx Hk]%(sh_stray _ _ H). exfalso.
    apply Hs, elem_of_dom in Hx as [? ?]. congruence.
Qed.

Lemma gc_shows n s A F :
  Inv s → shows s A → r_stray A = ∅ → r_garbage A F →
  ∃ s', step E n OGc s = Done OutUnit s' ∧ shows s' (r_tock (r_unknow F (r_forget F A))).
Proof.
  intros I H Hs HF. apply (stray_sub s A H) in Hs as Hsub.
  destruct (gc_ok (e_dbg E) (prio E s) (alive s) (objs s) (ch s) (i_c _ I)) as [Hok _].
  destruct (Hok Hsub) as (D & c' & Heq & Hpr & Hcl & HD).
  assert (step E n OGc s = Done OutUnit (tock (set_ch c' s))) as Hst by (cbn [step]; by rewrite Heq).
  destruct (gc_done_effect E n s _ _ I Hst) as [_ Hf]. eexists. split; [done|].
  assert (∀ w, w ∈ F ↔ knows s w ∧ ¬ live s w ∧ (∀ u, ¬ depends s u w)) as HF'.
  { intros w. rewrite (HF w), (sh_known _ _ H), (sh_live _ _ H). setoid_rewrite (sh_deps _ _ H). done. }
  apply (shows_forgets s A _ F F _ _ (r_stray A) _ _ H Hf HF' HF'); try done.
  - intros x. rewrite Hs. split; [set_solver|]. cbn. intros [Hl Hk]. exfalso.
    rewrite (pn_leafs _ _ _ _ _ Hpr) in Hl. rewrite (pn_known _ _ _ _ _ Hpr) in Hk. destruct Hl as [HnD Hl].
    rewrite bool_decide_eq_false_2 in Hk by done.
    destruct Hl as [Hl|[Hl|[(y & _ & Hd) _]]]; [|done|].
    + apply Hsub, elem_of_dom in Hl as [? ?]. congruence.
    + destruct (ci_edge_known _ _ (i_c _ I) _ _ Hd) as [[? ?] _]. congruence.
  - cbn. by rewrite (sh_tick _ _ H).
  - cbn. by rewrite (sh_log _ _ H).
Qed.

Lemma gc_panics n s A :
  Inv s → shows s A → r_stray A ≠ ∅ → step E n OGc s = Panic PkGcIndex (tock s).
Proof.
  intros I H Hs. rewrite (stray_sub s A H) in Hs.
  destruct (gc_ok (e_dbg E) (prio E s) (alive s) (objs s) (ch s) (i_c _ I)) as [_ Hno].
  cbn [step]. rewrite (Hno Hs). cbn [lift]. by destruct s.
Qed.

Lemma clear_artifacts_shows s A :
  Inv s → shows s A → shows (set_ch (clear_artifacts (ch s)) s)
    (Ref ∅ (r_state A) (r_known A) ∅ (r_stray A) (r_who A) (r_live A) (r_nobj A) (r_nbin A) (r_tick A) (r_log A)).
Proof.
  intros I H. destruct (clear_artifacts_effect E 0 s) as [_ Hf]. split; cbn; try apply H.
  - intros o. rewrite lookup_empty. symmetry. by apply (fg_gone _ _ _ _ Hf).
  - intros u w. rewrite (fg_depends _ _ _ _ Hf). set_solver.
  - intros x. rewrite (sh_stray _ _ H), elem_of_union, elem_of_dom. split; [tauto|]. intros [[?|[? ?]] ?]; [done|congruence].
Qed.

Lemma clear_all_shows s A :
  shows s A → shows (log EClear (set_ch (clear_all (ch s)) s))
    (Ref ∅ ∅ ∅ ∅ ∅ (r_who A) (r_live A) (r_nobj A) (r_nbin A) (r_tick A) (EClear :: r_log A)).
Proof.
  intros H. destruct (clear_all_effect E 0 s) as [_ Hf].
  assert (clear_all (ch s) = empty_cache) as -> by done.
  split; cbn; try apply H.
  - intros o. rewrite lookup_empty. symmetry. by apply (fg_gone _ _ _ _ Hf).
  - intros o. rewrite lookup_empty. symmetry. by apply (fg_state_gone _ _ _ _ Hf).
  - intros o. rewrite (fg_knows _ _ _ _ Hf). set_solver.
  - intros u w. rewrite (fg_depends _ _ _ _ Hf). set_solver.
  - set_solver.
  - by rewrite (sh_log _ _ H).
Qed.

(** ** Dynamic states *)
Lemma ensure_shows s A o d a :
  Inv s → shows s A → promise o s = Some (d, a) →
  match state_of s o, bd_init d with
  | Some v, _ => ensure_dyn_state a o (bd_sty d) (bd_init d) (ch s) = (make_known a o (ch s), inr v)
  | None, Some v => ensure_dyn_state a o (bd_sty d) (bd_init d) (ch s) = (set_dyn_states <[a := Dst (bd_sty d) v]> (make_known a o (ch s)), inr v)
  | None, None => ensure_dyn_state a o (bd_sty d) (bd_init d) (ch s) = (make_known a o (ch s), inl PkUser)
  end ∧
  Inv (set_ch (make_known a o (ch s)) s) ∧ shows (set_ch (make_known a o (ch s)) s) (r_meet o A) ∧
  known (make_known a o (ch s)) !! a = Some o.
Proof.
  intros I H Hp. apply promise_Some in Hp as Hp'. destruct Hp' as [Hal Ho].
  assert (prim s (set_ch (make_known a o (ch s)) s)) as Pk by (eapply pm_know; eauto).
  pose proof (prim_Inv E _ _ Pk I) as I1.
  assert (known (make_known a o (ch s)) !! a = Some o) as Hk1.
  { destruct (make_known_known a o (ch s)) as [z Hz]. rewrite Hz. f_equal.
    exact (Inv_known_is (set_ch (make_known a o (ch s)) s) o d a z I1 Hp Hz). }
  split; [|split; [done|split; [exact (shows_meet s A o d a I H Hp)|done]]].
  destruct (make_known_fields a o (ch s)) as (F1 & F2 & _).
  rewrite (live_state s o d a I Hp). unfold ensure_dyn_state. rewrite F2.
  destruct (dyn_states (ch s) !! a) as [dv|] eqn:Hdv; cbn.
  - rewrite (ci_dyn_ty _ _ (i_c _ I1) a dv o d); [by rewrite N.eqb_refl|cbn; by rewrite F2|exact Hk1|exact Ho].
  - by destruct (bd_init d).
Qed.

(** ** lookup_mut *)
Lemma lookup_mut_shows s A o d a :
  Inv s → stack s = [] → shows s A → promise o s = Some (d, a) → (∀ u, (u, o) ∈ r_deps A → u = o) →
  ∃ c, lookup_mut (e_dbg E) (prio E s) a (bd_aty d) (ch s) =
         (COk c, match r_art (r_prepare o A) !! o with Some b => LSome b | None => LNone end) ∧
    Inv (tock (set_ch c s)) ∧ shows (tock (set_ch c s)) (r_tock (r_spoil o (r_prepare o A))).
Proof.
  intros I Hst0 H Hp Hno. destruct (lookup_mut_ok (e_dbg E) (prio E s) o s d a I Hp) as [_ H2].
  assert (∀ y, dep_rel (ch s) a y → y = a) as Hno'.
  { intros y Hy. destruct (decide (y = a)); [done|]. exfalso.
    assert (∃ u, u ≠ o ∧ depends s u o) as (u & Hu & Hd) by (eapply other_dependent; eauto). apply Hu, Hno, (sh_deps _ _ H), Hd. }
  destruct (H2 Hno') as (c & Heq & HC & Hkn & Hlm). exists c.
  assert (Inv (tock (set_ch c s))) as I'.
  { apply Inv_tock, Inv_set_ch; [done..|]. intros a' o'. rewrite Hkn. intros Hk. right. by exists a'. }
  assert (shows (tock (set_ch c s)) (r_tock (r_spoil o (r_prepare o A)))) as Hsh.
  { destruct (inv_dependents_ok (e_dbg E) (prio E s) a (ch s) (ci_sync _ _ (i_c _ I)) Hno') as (c2 & Heq2 & Hcase).
    assert (c2 = c) as -> by congruence. apply promise_Some in Hp as Hp'. destruct Hp' as [Hal Ho].
    unfold r_prepare.
    destruct Hcase as [[Hd Hpr]|(Hd & Ha & Hdy & Hk & Hdp & Hdt & Hlf)].
    + rewrite decide_True by (apply (sh_deps _ _ H); by eapply self_dependent).
      assert (forgets s (eq o) (λ _, False) (tock (set_ch c s))) as Hf.
      { eapply (pruned_forgets s _ {[a]} ∅ ∅); try done.
        intros w dw wa Hw Hkw. rewrite elem_of_singleton. split.
        - intros ->. symmetry. apply (Inv_known_is s o d a w I Hp). by eapply knows_at.
        - intros <-. unfold at_addr in Hw. congruence. }
      apply (shows_forget s A _ {[o]} (eq o) (r_stray (r_spoil o (r_forget {[o]} A)))); try done.
      * intros w. rewrite elem_of_singleton. naive_solver.
      * intros x. rewrite (spoil_stray s A o d a x (r_forget {[o]} A) I H Hp eq_refl eq_refl eq_refl). cbn.
        rewrite (stray_pruned (objs s) (ch s) {[a]} ∅ a c x (i_c _ I) Hpr); set_solver.
      * cbn. by rewrite (sh_tick _ _ H).
      * cbn. by rewrite (sh_log _ _ H).
    + rewrite decide_False by (rewrite (sh_deps _ _ H), (self_dependent s o d a I Hp); done).
      destruct (obs_ext s (tock (set_ch c s)) eq_refl Hk) as (Hc & Hs & Hkn' & _).
      split; try apply H.
      * intros w. cbn [r_tock r_spoil r_art]. rewrite (sh_art _ _ H). symmetry. exact (Hc Ha w).
      * intros w. cbn [r_tock r_spoil r_state]. rewrite (sh_state _ _ H). symmetry. exact (Hs Hdy w).
      * intros w. cbn [r_tock r_spoil r_known]. rewrite Hkn'. apply H.
      * intros u w. cbn -[depends]. rewrite (sh_deps _ _ H). split; intros (du & ua & dw & wa & X & Hu & Hku & Hw & Hkw & HX & Hin).
        -- exists du, ua, dw, wa, X. cbn. rewrite Hk, Hdt. rewrite lookup_delete_ne; [done|].
           intros <-. assert (ua = a) as -> by (apply Hno'; unfold dep_rel; by rewrite HX).
           apply Hd. unfold dep_rel. by rewrite HX.
        -- cbn in *. rewrite Hdt in HX. apply lookup_delete_Some in HX as [Hne HX].
           exists du, ua, dw, wa, X. rewrite Hk in *. done.
      * intros x. cbn [r_tock r_stray]. rewrite (spoil_stray s A o d a x A I H Hp eq_refl eq_refl eq_refl). cbn.
        rewrite Hk, Hlf, elem_of_union, elem_of_singleton. naive_solver.
      * cbn. by rewrite (sh_tick _ _ H). }
  split; [|done]. rewrite Hlm. do 2 f_equal. change (r_art (r_prepare o A)) with (r_art (r_tock (r_spoil o (r_prepare o A)))).
  rewrite (sh_art _ _ Hsh), (live_cached (tock (set_ch c s)) o d a I' Hp). cbn. by destruct (artifacts c !! a).
Qed.

Lemma lookup_mut_panics s A o d a u :
  Inv s → shows s A → promise o s = Some (d, a) → u ≠ o → (u, o) ∈ r_deps A →
  ∃ c, lookup_mut (e_dbg E) (prio E s) a (bd_aty d) (ch s) = (CPanic PkCounterpart c, LNone).
Proof.
  intros I H Hp Hu Hd. destruct (lookup_mut_ok (e_dbg E) (prio E s) o s d a I Hp) as [H1 _]. apply H1.
  eapply other_dependent; [done..|]. exists u. split; [done|]. by apply (sh_deps _ _ H).
Qed.

Lemma used_dec A o : (∃ u, u ≠ o ∧ (u, o) ∈ r_deps A) ∨ (∀ u, (u, o) ∈ r_deps A → u = o).
Proof.
  destruct (decide (set_Exists (λ p, p.1 ≠ o ∧ p.2 = o) (r_deps A))) as [([u w] & Hp & Hu & Hw)|Hn].
  - left. exists u. cbn in *. by subst.
  - right. intros u Hu. destruct (decide (u = o)); [done|]. exfalso. apply Hn. by exists (u, o).
Qed.

(** Building does not care whether the builder was a stray leaf. *)
Lemma meet_spoil o A : r_meet o (r_tock (r_spoil o A)) = r_meet o (r_tock A).
Proof.
  destruct A as [a1 a2 a3 a4 a5 a6 a7 a8 a9 a10 a11]. unfold r_meet, r_tock, r_spoil, r_addrs, r_addr. cbn. f_equal.
  destruct (decide _); [done|]. apply set_eq. intros x. set_solver.
Qed.
Lemma rbuild_spoil B o A x A' : rbuild B o (r_tock (r_spoil o A)) x A' ↔ rbuild B o (r_tock A) x A'.
Proof.
  split; intros H; inversion H; subst.
  - rewrite meet_spoil. by eapply rbuild_noinit.
  - eapply rbuild_ok; [done..|]. by rewrite <- meet_spoil.
  - eapply rbuild_err; [done..|]. by rewrite <- meet_spoil.
  - eapply rbuild_panic; [done..|]. by rewrite <- meet_spoil.
  - rewrite <- meet_spoil. by eapply rbuild_noinit.
  - eapply rbuild_ok; [done..|]. by rewrite meet_spoil.
  - eapply rbuild_err; [done..|]. by rewrite meet_spoil.
  - eapply rbuild_panic; [done..|]. by rewrite meet_spoil.
Qed.

Lemma prepare_again o A : (∀ u, (u, o) ∈ r_deps A → u = o) →
  r_prepare o (r_tock (r_prepare o A)) = r_tock (r_prepare o A).
Proof.
  intros _. unfold r_prepare at 1. rewrite decide_False; [done|]. unfold r_prepare. cbn.
  destruct (decide _) as [Hd|Hd]; cbn; [|done]. rewrite elem_of_filter. cbn. set_solver.
Qed.
Lemma prepare_deps o A u w : (u, w) ∈ r_deps (r_prepare o A) → (u, w) ∈ r_deps A.
Proof. unfold r_prepare. destruct (decide _); cbn; [|done]. rewrite elem_of_filter. tauto. Qed.
Lemma spoil_known o A : o ∈ r_known A → r_spoil o A = A.
Proof. intros H. destruct A. unfold r_spoil. cbn in *. by rewrite decide_True. Qed.
Lemma prepare_known o A : r_known (r_prepare o A) = r_known A.
Proof. unfold r_prepare. by destruct (decide _). Qed.
Lemma prepare_art o A b : r_art (r_prepare o A) !! o = Some b → r_art A !! o = Some b.
Proof. unfold r_prepare. destruct (decide _); cbn; [|done]. by intros [? _]%map_filter_lookup_Some. Qed.
Lemma art_known s A o d a b : Inv s → shows s A → promise o s = Some (d, a) → r_art A !! o = Some b → o ∈ r_known A.
Proof.
  intros I H Hp Hb. rewrite (sh_art _ _ H), (live_cached s o d a I Hp) in Hb. apply (r_known_addr s A o d a I H Hp).
  destruct (artifacts (ch s) !! a) as [e|] eqn:He; [|done].
  destruct (ci_dyn_known _ _ (i_c _ I) a) as [z Hz]; [apply (ci_art_dyn _ _ (i_c _ I)); eauto|].
  rewrite Hz. f_equal. exact (Inv_known_is s o d a z I Hp Hz).
Qed.
Lemma r_write_none o f A : r_art A !! o = None → r_write o f A = A.
Proof. intros H. destruct A. unfold r_write. cbn in *. f_equal. by apply alter_id_None || (apply map_eq; intros w; destruct (decide (w = o)) as [->|]; [rewrite lookup_alter, H|rewrite lookup_alter_ne]; done). Qed.

Lemma get_mut_at s A o d a f :
  Inv s → stack s = [] → shows s A → promise o s = Some (d, a) → e_kind E = Boxed → (∀ u, (u, o) ∈ r_deps A → u = o) →
  ∃ s1, Inv s1 ∧ stack s1 = [] ∧ promise o s1 = Some (d, a) ∧ shows s1 (r_tock (r_spoil o (r_prepare o A))) ∧
  match r_art (r_prepare o A) !! o with
  | Some b => ∃ s', (∀ n, step E n (OGetMut o f) s = Done (OutRes (RvVal (bin_val b))) s') ∧ shows s' (r_tock (r_tock (r_write o f (r_prepare o A))))
  | None => cached s1 o = None ∧ ∀ n, step E n (OGetMut o f) s =
      match build E n o s1 with
      | Done (BOk e) s' =>
        if (ar_ty e =? bd_aty d)%N
        then Done (OutRes (RvVal (bin_val (ar_bin e)))) (set_ch (write_art a f (ch s')) s')
        else Panic PkDowncast s'
      | Done (BErr e) s' => Done (OutRes (RvErr e)) s'
      | Panic k s' => Panic k s'
      | NoFuel => NoFuel
      | Illegal => Illegal
      end
  end.
Proof.
  intros I Hst H Hp Hk Hno. destruct (lookup_mut_shows s A o d a I Hst H Hp Hno) as (c & Hl & I1 & H1).
  set (s1 := tock (set_ch c s)) in *. exists s1. do 2 (split; [done|]). split; [done|]. split; [done|].
  destruct (r_art (r_prepare o A) !! o) as [b|] eqn:Hb.
  - assert (o ∈ r_known (r_prepare o A)) as Hkn.
    { rewrite prepare_known. apply prepare_art in Hb as Hb2. exact (art_known s A o d a b I H Hp Hb2). }
    rewrite spoil_known in H1 by done.
    destruct (lookup_mut_shows s1 _ o d a I1 Hst H1 Hp) as (c2 & Hl2 & I2 & H2).
    { cbn. intros u Hu. by apply Hno, (prepare_deps o A). }
    rewrite prepare_again in H2, Hl2 by done. rewrite spoil_known in H2 by done. cbn [r_art r_tock] in Hl2. rewrite Hb in Hl2.
    eexists. split.
    + intros n. cbn [step]. unfold op_get_mut. rewrite Hk, Hp, Hl. fold s1. rewrite Hl2. reflexivity.
    + exact (shows_write (tock (set_ch c2 s1)) _ o d a f I2 H2 Hp).
  - split; [rewrite <- (sh_art _ _ H1); exact Hb|]. intros n. cbn [step]. unfold op_get_mut. rewrite Hk, Hp, Hl. done.
Qed.

Definition ends_as (y : answer) (s : st) : outcome out :=
  match y with Returned r => Done r s | Panicked k => Panic k s end.

Lemma live_at s A o : Inv s → shows s A → o ∈ r_live A →
  ∃ d a, promise o s = Some (d, a) ∧ r_def A o = Some d ∧ r_addrs A o = {[a]}.
Proof.
  intros I H Hl. destruct (get_live s A o I H Hl) as (d & a & Hp). exists d, a. split; [done|].
  apply promise_Some in Hp as [_ Ho]. by destruct (r_addr_at s A o d a H Ho) as (_ & ? & ?).
Qed.

Lemma not_live_at s A o : shows s A → promise o s = None → Inv s → o ∉ r_live A.
Proof. intros H Hp I Hl. destruct (get_live s A o I H Hl) as (? & ? & ?). congruence. Qed.

(** Writing a state after an invalidation. *)
Lemma meet_note_spoil o e A : r_meet o (r_note e (r_tock (r_spoil o A))) = r_meet o (r_note e (r_tock A)).
Proof.
  destruct A as [a1 a2 a3 a4 a5 a6 a7 a8 a9 a10 a11]. unfold r_meet, r_note, r_tock, r_spoil, r_addrs, r_addr. cbn. f_equal.
  destruct (decide _); [done|]. apply set_eq. intros x. set_solver.
Qed.
Lemma r_put_put o v v' A : r_put o v (r_put o v' A) = r_put o v A.
Proof. destruct A. unfold r_put. cbn. by rewrite insert_insert. Qed.

Lemma dyn_state_mut_at s A o d a f F :
  Inv s → stack s = [] → shows s A → promise o s = Some (d, a) → r_affected A o F →
  let A1 := r_note (EInvalidate o) (r_tock (r_forget F A)) in
  match r_state A !! o, bd_init d with
  | None, None => ∃ s', (∀ n, step E n (ODynStateMut o f) s = Panic PkUser s') ∧ shows s' (r_meet o A1)
  | x, y => ∃ v s', (x = Some v ∨ x = None ∧ y = Some v) ∧
      (∀ n, step E n (ODynStateMut o f) s = Done (OutVal v) s') ∧ shows s' (r_put o (f v) (r_meet o A1))
  end.
Proof.
  intros I Hst0 H Hp HF A1. destruct (invalidate_shows s A o d a F I H Hp HF) as (c & Hc & H1).
  set (s1 := log (EInvalidate o) (tock (set_ch c s))) in *.
  assert (Inv s1) as I1.
  { assert (∃ s', step E 0 (OInvalidate o) s = Done OutUnit s' ∧ s' = s1) as (s' & Hs & ->).
    { eexists. split; [cbn [step]; rewrite Hp, Hc; cbn [lift]; done|done]. }
    by destruct (step_Inv E _ _ _ _ _ I Hst0 Hs). }
  assert (promise o s1 = Some (d, a)) as Hp1 by done.
  destruct (ensure_shows s1 _ o d a I1 H1 Hp1) as (He & I2 & H2 & Hk2). rewrite meet_note_spoil in H2. fold A1 in H2.
  assert (state_of s1 o = r_state A !! o) as Hso by (rewrite <- (sh_state _ _ H1); done).
  rewrite Hso in He. apply promise_Some in Hp as Hp'. destruct Hp' as [_ Ho].
  destruct (r_state A !! o) as [v|] eqn:Hv.
  - assert (∃ v' s', (Some v = Some v' ∨ Some v = None ∧ bd_init d = Some v') ∧
      (∀ n, step E n (ODynStateMut o f) s = Done (OutVal v') s') ∧ shows s' (r_put o (f v') (r_meet o A1))) as Hgoal; [|by destruct (bd_init d)].
    exists v. eexists. split; [by left|]. split.
    + intros n. cbn [step]. rewrite Hp, Hc. fold s1. rewrite He. reflexivity.
    + exact (shows_put _ _ o d a (bd_sty d) (f v) I2 H2 Ho Hk2).
  - destruct (bd_init d) as [v|] eqn:Hi.
    + exists v. eexists. split; [by right|]. split.
      * intros n. cbn [step]. rewrite Hp, Hc. fold s1. rewrite Hi, He. reflexivity.
      * pose proof (shows_put _ _ o d a (bd_sty d) v I2 H2 Ho Hk2) as H3.
        rewrite <- (r_put_put o (f v) v). apply (shows_put _ _ o d a (bd_sty d) (f v)) in H3; try done.
        apply (prim_Inv E (set_ch (make_known a o (ch s1)) s1)); [|done].
        eapply (pm_dyn E (set_ch (make_known a o (ch s1)) s1) o d a v Hp); [exists o; exact Hk2| |done].
        destruct (make_known_fields a o (ch s1)) as (_ & F2 & _). cbn [ch set_ch]. rewrite F2.
        rewrite (live_state s1 o d a I1 Hp1) in Hso. by destruct (dyn_states (ch s1) !! a).
    + eexists. split; [|exact H2]. intros n. cbn [step]. rewrite Hp, Hc. fold s1. rewrite Hi, He. reflexivity.
Qed.

Lemma call_complete x A y A' s :
  Inv s → stack s = [] → shows s A → rcall x A y A' →
  ∃ n0 s', (∀ n, n0 ≤ n → step E n x s = ends_as y s') ∧ (y ≠ Panicked PkCounterpart → shows s' A').
Proof.
  intros I Hst H Hc. destruct (build_complete E) as (CG & CB & _).
  destruct Hc as [d A Hfr|o A Hl|h o A r A' Hg|h o A A' Hg|h o A Hl Hh|x o u A Hm Hkd Hl Hu Hd|o f A A1 Hkd Hl Hno ->
    |o f A A1 b Hkd Hl Hno -> Hb|o f A A1 b A' Hkd Hl Hno -> Hb Hr|o f A A1 e A' Hkd Hl Hno -> Hb Hr|o f A A1 A' Hkd Hl Hno -> Hb Hr
    |o A Hl|o A v Hl Hv|o A d v Hl Hv Hd Hi|o A d Hl Hv Hd Hi|o f A F A1 d v Hl HF -> Hd Hv|o f A F A1 d Hl HF -> Hd Hv Hi
    |o A F Hl HF|o A F Hl HF|A|A|A F Hs HF|A Hs|o A Hl|A].
  - pose proof (alloc_iff E s A d I H) as Ha. destruct (alloc E d s) as [[o s1]|] eqn:Hal; [|done].
    destruct Ha as (_ & -> & H1). exists 0, s1. split; [|done]. intros n _. cbn [step]. by rewrite Hal.
  - pose proof (drop_iff s A o H) as Ha. destruct (drop_obj o s) as [s1|] eqn:Hal; [|rewrite Hst in Ha; exfalso; apply Ha; split; [done|set_solver]].
    destruct Ha as (_ & _ & H1). exists 0, s1. split; [|done]. intros n _. cbn [step]. by rewrite Hal.
  - destruct (CG _ _ _ _ _ _ Hg s I H Hst) as (n0 & s' & Hs & Hn). exists n0, s'. split; [|done]. intros n Hle. cbn [step]. by rewrite Hn.
  - destruct (CG _ _ _ _ _ _ Hg s I H Hst) as (n0 & s' & Hs & Hn). exists n0, s'. split; [|done]. intros n Hle. cbn [step]. by rewrite Hn.
  - destruct (live_at s A o I H Hl) as (d & a & Hp & _). exists 0, s. split; [|done]. intros n _. cbn [step]. rewrite Hp.
    apply legal_iff in Hh. rewrite Hh, (lookup_art_ok _ o s d a I Hp), (sh_art _ _ H), (live_cached s o d a I Hp).
    by destruct (artifacts (ch s) !! a).
  - destruct (live_at s A o I H Hl) as (d & a & Hp & _). destruct (lookup_mut_panics s A o d a u I H Hp Hu Hd) as (c & Hc).
    exists 0, (tock (set_ch c s)). split; [|done]. intros n _.
    destruct Hm as [[f ->]|[f ->]]; cbn [step]; [unfold op_get_mut|unfold op_lookup_mut]; by rewrite Hkd, Hp, Hc.
  - destruct (live_at s A o I H Hl) as (d & a & Hp & _). destruct (lookup_mut_shows s A o d a I Hst H Hp Hno) as (c & Hc & I1 & H1).
    cbn [step]. unfold op_lookup_mut. rewrite Hkd, Hp, Hc.
    destruct (r_art (r_prepare o A) !! o) as [b|] eqn:Hb; (eexists 0, _; split; [intros n _; reflexivity|]); intros _.
    + exact (shows_write (tock (set_ch c s)) _ o d a f I1 H1 Hp).
    + rewrite (r_write_none o f (r_prepare o A) Hb). exact H1.
  - destruct (live_at s A o I H Hl) as (d & a & Hp & _). destruct (get_mut_at s A o d a f I Hst H Hp Hkd Hno) as (s1 & _ & _ & _ & _ & Hx).
    rewrite Hb in Hx. destruct Hx as (s' & Hs & H'). exists 0, s'. split; [|done]. intros n _. apply Hs.
  - destruct (live_at s A o I H Hl) as (d & a & Hp & _). destruct (get_mut_at s A o d a f I Hst H Hp Hkd Hno) as (s1 & I1 & Hst1 & Hp1 & H1 & Hx).
    rewrite Hb in Hx. destruct Hx as (Hc & Hs). apply rbuild_spoil in Hr.
    destruct (CB _ _ _ _ _ Hr s1 d a I1 H1 Hst1 Hp1 Hc) as (n0 & s2 & H2 & Hn). cbn in Hn.
    pose proof (cached_None s1 o d a I1 Hp1 Hc) as Ha.
    destruct (build_alive E n0 o s1 d a _ s2 I1 Hp1 Ha (Hn n0 (le_n _))) as [Hp2 _].
    assert (Inv s2) as I2.
    { eapply (prims_Inv E s1); [|done]. eapply (build_prims E n0 o s1); [done..|]. left. eexists. by apply Hn. }
    eexists n0, _. split; [intros n Hle; rewrite Hs, Hn by done; cbn; rewrite N.eqb_refl; reflexivity|]. intros _.
    by apply (shows_write s2 A' o d a f).
  - destruct (live_at s A o I H Hl) as (d & a & Hp & _). destruct (get_mut_at s A o d a f I Hst H Hp Hkd Hno) as (s1 & I1 & Hst1 & Hp1 & H1 & Hx).
    rewrite Hb in Hx. destruct Hx as (Hc & Hs). apply rbuild_spoil in Hr.
    destruct (CB _ _ _ _ _ Hr s1 d a I1 H1 Hst1 Hp1 Hc) as (n0 & s2 & H2 & Hn). cbn in Hn.
    exists n0, s2. split; [|done]. intros n Hle. by rewrite Hs, Hn.
  - destruct (live_at s A o I H Hl) as (d & a & Hp & _). destruct (get_mut_at s A o d a f I Hst H Hp Hkd Hno) as (s1 & I1 & Hst1 & Hp1 & H1 & Hx).
    rewrite Hb in Hx. destruct Hx as (Hc & Hs). apply rbuild_spoil in Hr.
    destruct (CB _ _ _ _ _ Hr s1 d a I1 H1 Hst1 Hp1 Hc) as (n0 & s2 & H2 & Hn). cbn in Hn.
    exists n0, s2. split; [|done]. intros n Hle. by rewrite Hs, Hn.
  - exists 0, s. split; [|done]. intros n _. destruct (live_at s A o I H Hl) as (d & a & Hp & _).
    rewrite (get_dyn_state_effect E n o s I); [by rewrite (sh_state _ _ H)|]. by apply promise_Some in Hp as [? _].
  - destruct (live_at s A o I H Hl) as (d & a & Hp & Hd & _). destruct (ensure_shows s A o d a I H Hp) as (He & _ & H2 & Hk2).
    assert (state_of s o = Some v) as Hso by (by rewrite <- (sh_state _ _ H)). rewrite Hso in He.
    eexists 0, _. split; [intros n _; cbn [step]; rewrite Hp, He; reflexivity|]. intros _.
    assert (make_known a o (ch s) = ch s) as ->.
    { unfold make_known. rewrite (live_state s o d a I Hp) in Hso.
      destruct (ci_dyn_known _ _ (i_c _ I) a) as [z ->]; [|done]. destruct (dyn_states (ch s) !! a); [eauto|done]. }
    by destruct s.
  - destruct (live_at s A o I H Hl) as (d' & a & Hp & Hd' & _). assert (d' = d) as -> by congruence.
    destruct (ensure_shows s A o d a I H Hp) as (He & I2 & H2 & Hk2).
    assert (state_of s o = None) as Hso by (by rewrite <- (sh_state _ _ H)). rewrite Hso, Hi in He.
    eexists 0, _. split; [intros n _; cbn [step]; rewrite Hp, Hi, He; reflexivity|]. intros _.
    apply promise_Some in Hp as [_ Ho]. exact (shows_put _ _ o d a (bd_sty d) v I2 H2 Ho Hk2).
  - destruct (live_at s A o I H Hl) as (d' & a & Hp & Hd' & _). assert (d' = d) as -> by congruence.
    destruct (ensure_shows s A o d a I H Hp) as (He & I2 & H2 & Hk2).
    assert (state_of s o = None) as Hso by (by rewrite <- (sh_state _ _ H)). rewrite Hso, Hi in He.
    eexists 0, _. split; [intros n _; cbn [step]; rewrite Hp, Hi, He; reflexivity|]. intros _. exact H2.
  - destruct (live_at s A o I H Hl) as (d' & a & Hp & Hd' & _). assert (d' = d) as -> by congruence.
    pose proof (dyn_state_mut_at s A o d a f F I Hst H Hp HF) as Hx. cbn zeta in Hx.
    assert (∃ v' s', (r_state A !! o = Some v' ∨ r_state A !! o = None ∧ bd_init d = Some v') ∧
      (∀ n, step E n (ODynStateMut o f) s = Done (OutVal v') s') ∧
      shows s' (r_put o (f v') (r_meet o (r_note (EInvalidate o) (r_tock (r_forget F A)))))) as (v' & s' & Hv' & Hs & H').
    { destruct (r_state A !! o), (bd_init d); [done..|]. by destruct Hv as [?|[? ?]]. }
    assert (v' = v) as -> by (destruct Hv as [?|[? ?]], Hv' as [?|[? ?]]; congruence).
    exists 0, s'. split; [|done]. intros n _. apply Hs.
  - destruct (live_at s A o I H Hl) as (d' & a & Hp & Hd' & _). assert (d' = d) as -> by congruence.
    pose proof (dyn_state_mut_at s A o d a f F I Hst H Hp HF) as Hx. cbn zeta in Hx. rewrite Hv, Hi in Hx.
    destruct Hx as (s' & Hs & H'). exists 0, s'. split; [|done]. intros n _. apply Hs.
  - destruct (live_at s A o I H Hl) as (d & a & Hp & _). destruct (invalidate_shows s A o d a F I H Hp HF) as (c & Hc & H1).
    eexists 0, _. split; [intros n _; cbn [step]; rewrite Hp, Hc; reflexivity|]. intros _. exact H1.
  - destruct (live_at s A o I H Hl) as (d & a & Hp & _). destruct (purge_shows s A o d a F I H Hp HF) as (c & Hc & H1).
    eexists 0, _. split; [intros n _; cbn [step]; rewrite Hp, Hc; reflexivity|]. intros _. exact H1.
  - eexists 0, _. split; [intros n _; reflexivity|]. intros _. by apply clear_artifacts_shows.
  - eexists 0, _. split; [intros n _; reflexivity|]. intros _. by apply clear_all_shows.
  - destruct (gc_shows 0 s A F I H Hs HF) as (s' & Hs' & H'). exists 0, s'. split; [|done]. intros n _. exact Hs'.
  - exists 0, (tock s). split; [intros n _; by apply (gc_panics n s A)|]. intros _. by apply shows_tock.
  - destruct (live_at s A o I H Hl) as (d & a & Hp & _). exists 0, s. split; [|done]. intros n _. cbn [step]. rewrite Hp. cbn. do 2 f_equal.
    unfold is_known. apply bool_decide_ext. destruct (r_known_addr s A o d a I H Hp) as [Hk1 Hk2].
    destruct (decide (o ∈ r_known A)) as [Hk|Hk].
    + apply Hk1 in Hk as Hk'. rewrite Hk'. split; [done|eauto].
    + apply Hk2 in Hk as Hk'. rewrite Hk'. split; [intros [? ?]; done|done].
  - exists 0, s. split; [|done]. intros n _. cbn. do 2 f_equal. 
    destruct (known_set s I) as (X & HX & <-).  f_equal.
    apply set_eq. intros w. rewrite (HX w). symmetry. apply (sh_known _ _ H).
Qed.

(** Calls that build nothing: either illegal, or the reference cache has an answer. *)
Lemma simple_answer x A s n :
  Inv s → stack s = [] → shows s A → (∀ h o, x ≠ OGet h o) → (∀ o f, x ≠ OGetMut o f) →
  step E n x s = Illegal ∨ ∃ y A', rcall x A y A'.
Proof.
  intros I Hst H Hx1 Hx2.
  assert (∀ o, match promise o s with None => True | Some (d, a) => o ∈ r_live A ∧ r_def A o = Some d end) as Hpr.
  { intros o. destruct (promise o s) as [[d a]|] eqn:Hp; [|done]. apply promise_Some in Hp as [Hal Ho].
    split; [by rewrite (sh_live _ _ H)|]. by destruct (r_addr_at s A o d a H Ho) as (_ & ? & _). }
  destruct x as [d|o|h o|o f|h o|o f|o|o f|o|o|o| | | |o| ]; cbn [step].
  - pose proof (alloc_iff E s A d I H) as Ha. destruct (alloc E d s) as [[o s1]|] eqn:Hal; [|by left].
    destruct Ha as (Hf & _). right. do 2 eexists. by constructor.
  - pose proof (drop_iff s A o H) as Ha. destruct (drop_obj o s) as [s1|] eqn:Hal; [|by left].
    destruct Ha as (Hl & _). right. do 2 eexists. by constructor.
  - by destruct (Hx1 h o).
  - by destruct (Hx2 o f).
  - specialize (Hpr o). destruct (promise o s) as [[d a]|] eqn:Hp; [|by left]. destruct Hpr as [Hl Hd].
    destruct (how_legal E h) eqn:Hh; [|by left]. apply legal_iff in Hh. right. do 2 eexists. by constructor.
  - unfold op_lookup_mut. specialize (Hpr o). destruct (e_kind E) eqn:Hk; [by left|].
    destruct (promise o s) as [[d a]|] eqn:Hp; [|by left]. destruct Hpr as [Hl Hd]. right.
    destruct (used_dec A o) as [(u & Hu & Hud)|Hno].
    + do 2 eexists. eapply rc_mut_used; [right; eauto|try done..].
    + do 2 eexists. by eapply rc_lookup_mut.
  - specialize (Hpr o). destruct (promise o s) as [[d a]|] eqn:Hp; [|by left]. destruct Hpr as [Hl Hd]. right.
    destruct (r_state A !! o) as [v|] eqn:Hv; [do 2 eexists; by eapply rc_dyn_state|].
    destruct (bd_init d) as [v|] eqn:Hi; [do 2 eexists; by eapply rc_dyn_state_init|do 2 eexists; by eapply rc_dyn_state_panic].
  - specialize (Hpr o). destruct (promise o s) as [[d a]|] eqn:Hp; [|by left]. destruct Hpr as [Hl Hd]. right.
    destruct (affected_ex s A o I H Hl) as [F HF].
    destruct (r_state A !! o) as [v|] eqn:Hv; [do 2 eexists; eapply rc_dyn_state_mut; [done..|by left]|].
    destruct (bd_init d) as [v|] eqn:Hi; [do 2 eexists; eapply rc_dyn_state_mut; [done..|by right]|do 2 eexists; by eapply rc_dyn_state_mut_panic].
  - specialize (Hpr o). destruct (promise o s) as [[d a]|] eqn:Hp; [|by left]. destruct Hpr as [Hl Hd]. right. do 2 eexists. by constructor.
  - specialize (Hpr o). destruct (promise o s) as [[d a]|] eqn:Hp; [|by left]. destruct Hpr as [Hl Hd]. right.
    destruct (affected_ex s A o I H Hl) as [F HF]. do 2 eexists. by eapply rc_invalidate.
  - specialize (Hpr o). destruct (promise o s) as [[d a]|] eqn:Hp; [|by left]. destruct Hpr as [Hl Hd]. right.
    destruct (affected_ex s A o I H Hl) as [F HF]. do 2 eexists. by eapply rc_purge.
  - right. do 2 eexists. constructor.
  - right. do 2 eexists. constructor.
  - right. destruct (decide (r_stray A = ∅)) as [Hs|Hs]; [|do 2 eexists; by apply rc_gc_panic].
    destruct (garbage_ex A) as [F HF]. do 2 eexists. by eapply rc_gc.
  - specialize (Hpr o). destruct (promise o s) as [[d a]|] eqn:Hp; [|by left]. destruct Hpr as [Hl Hd]. right. do 2 eexists. by constructor.
  - right. do 2 eexists. constructor.
Qed.

Lemma simple_fuel x n m s : (∀ h o, x ≠ OGet h o) → (∀ o f, x ≠ OGetMut o f) → step E n x s = step E m x s.
Proof. intros H1 H2. destruct x as [d|o|h o|o f|h o|o f|o|o f|o|o|o| | | |o| ]; try done; [by destruct (H1 h o)|by destruct (H2 o f)]. Qed.

Lemma simple_dec x : (∃ h o, x = OGet h o) ∨ (∃ o f, x = OGetMut o f) ∨ (∀ h o, x ≠ OGet h o) ∧ (∀ o f, x ≠ OGetMut o f).
Proof. destruct x; naive_solver. Qed.

Lemma call_sound x A s n y s' :
  Inv s → stack s = [] → shows s A → step E n x s = ends_as y s' →
  ∃ A', rcall x A y A' ∧ (y ≠ Panicked PkCounterpart → shows s' A').
Proof.
  intros I Hst H Hs. destruct (simple_dec x) as [(h & o & ->)|[(o & f & ->)|[Hx1 Hx2]]].
  - cbn [step] in Hs. destruct (get_sound E (build E n) h o s A (build_sound E n) I H) as [G1 G2]. rewrite Hst in G1, G2.
    unfold get in Hs. destruct (get_with E (build E n) h o s) as [r s1|k s1| |]; destruct y; try done; injection Hs as <- <-.
    + destruct (G1 _ _ eq_refl) as (A' & Hg & H'). exists A'. split; [by constructor|done].
    + destruct (G2 _ _ eq_refl) as (-> & A' & Hg & H'). exists A'. split; [by constructor|done].
  - assert (e_kind E = Boxed) as Hkd by (cbn [step] in Hs; unfold op_get_mut in Hs; destruct (e_kind E); try done; by destruct y).
    destruct (promise o s) as [[d a]|] eqn:Hp; [|exfalso; cbn [step] in Hs; unfold op_get_mut in Hs; rewrite Hkd, Hp in Hs; by destruct y].
    assert (o ∈ r_live A) as Hl by (rewrite (sh_live _ _ H); by apply promise_Some in Hp as [? _]).
    destruct (used_dec A o) as [(u & Hu & Hud)|Hno].
    { destruct (lookup_mut_panics s A o d a u I H Hp Hu Hud) as (c & Hc). cbn [step] in Hs. unfold op_get_mut in Hs.
      rewrite Hkd, Hp, Hc in Hs. destruct y; [done|]. injection Hs as <- <-. exists A. split; [|done].
      eapply rc_mut_used; [left; eauto|done..]. }
    destruct (get_mut_at s A o d a f I Hst H Hp Hkd Hno) as (s1 & I1 & Hst1 & Hp1 & H1 & Hx).
    destruct (r_art (r_prepare o A) !! o) as [b|] eqn:Hb.
    + destruct Hx as (s2 & Hx & H2). rewrite Hx in Hs. destruct y; [|done]. injection Hs as <- <-.
      eexists. split; [by eapply rc_get_mut_hit|]. intros _. exact H2.
    + destruct Hx as (Hc & Hx). rewrite Hx in Hs. clear Hx.
      pose proof (cached_None s1 o d a I1 Hp1 Hc) as Ha.
      destruct (build_sound E n o s1 d a _ I1 H1 Hp1 Hc) as [B1 B2]. rewrite Hst1 in B1, B2.
      destruct (build E n o s1) as [[e|e] s2|k s2| |] eqn:Hbd; try (by destruct y).
      * destruct (B1 _ _ eq_refl) as (Hty & A' & Hr & H2). rewrite (Hty e eq_refl), N.eqb_refl in Hs.
        destruct y; [|done]. injection Hs as <- <-. apply (proj1 (rbuild_spoil _ _ _ _ _)) in Hr.
        destruct (build_alive E n o s1 d a _ s2 I1 Hp1 Ha Hbd) as [Hp2 _].
        assert (Inv s2) as I2.
        { eapply (prims_Inv E s1); [|done]. eapply (build_prims E n o s1); [done..|]. left. by eexists. }
        exists (r_write o f A'). split; [eapply (rc_get_mut _ _ o f A _ (ar_bin e)); [exact Hkd|exact Hl|exact Hno|reflexivity|exact Hb|exact Hr]|]. intros _. by apply (shows_write s2 A' o d a f).
      * destruct (B1 _ _ eq_refl) as (_ & A' & Hr & H2). destruct y; [|done]. injection Hs as <- <-. apply (proj1 (rbuild_spoil _ _ _ _ _)) in Hr.
        exists A'. split; [eapply rc_get_mut_err; [exact Hkd|exact Hl|exact Hno|reflexivity|exact Hb|exact Hr]|done].
      * destruct (B2 _ _ eq_refl) as (-> & A' & Hr & H2). destruct y; [done|]. injection Hs as <- <-. apply (proj1 (rbuild_spoil _ _ _ _ _)) in Hr.
        exists A'. split; [eapply rc_get_mut_panic; [exact Hkd|exact Hl|exact Hno|reflexivity|exact Hb|exact Hr]|done].
  - destruct (simple_answer x A s n I Hst H Hx1 Hx2) as [Hi|(y' & A' & Hc)]; [rewrite Hi in Hs; by destruct y|].
    destruct (call_complete x A y' A' s I Hst H Hc) as (n0 & s2 & Hs2 & H2).
    specialize (Hs2 n0 (le_n _)). rewrite (simple_fuel x n0 n s Hx1 Hx2), Hs in Hs2.
    assert (y' = y ∧ s2 = s') as [-> ->] by (destruct y, y'; cbn in Hs2; try discriminate Hs2; split; congruence).
    eauto.
Qed.

(** ** Histories *)
Notation rruns := (rruns (e_ask E) (e_kind E)).

Lemma resumable_iff x A k A' : rcall x A (Panicked k) A' → resumable k = true ↔ k ≠ PkCounterpart.
Proof. inversion 1; done. Qed.

Lemma history_sound l s : runs E any_op init_st l s → ∃ A, rruns new_ref l A ∧ shows s A.
Proof.
  intros Hr. induction Hr as [|l s n x r s' Hr IH _ Hs|l s n x k s' Hr IH _ Hs Hk].
  - exists new_ref. split; [constructor|exact shows_init].
  - destruct IH as (A & HA & H). destruct (reach_Inv E any_op s (ex_intro _ l Hr)) as [I Hst].
    destruct (call_sound x A s n (Returned r) s' I Hst H Hs) as (A' & Hc & H'). exists A'. split; [by eapply rruns_call|by apply H'].
  - destruct IH as (A & HA & H). destruct (reach_Inv E any_op s (ex_intro _ l Hr)) as [I Hst].
    destruct (call_sound x A s n (Panicked k) s' I Hst H Hs) as (A' & Hc & H').
    assert (k ≠ PkCounterpart) as Hne by (by apply (resumable_iff _ _ _ _ Hc)).
    exists A'. split; [eapply rruns_call; [done..|congruence]|]. apply shows_stack, H'. congruence.
Qed.

Lemma history_complete l A : rruns new_ref l A → ∃ s, runs E any_op init_st l s ∧ shows s A.
Proof.
  remember new_ref as A0 eqn:HA0. intros Hr. revert HA0. induction Hr as [A|A0 l A x y A' Hr IH Hc Hy]; intros ->.
  - exists init_st. split; [constructor|exact shows_init].
  - destruct (IH eq_refl) as (s & Hs & H). destruct (reach_Inv E any_op s (ex_intro _ l Hs)) as [I Hst].
    destruct (call_complete x A y A' s I Hst H Hc) as (n & s' & Hn & H'). specialize (Hn n (le_n _)).
    destruct y as [r|k]; cbn in Hn.
    + exists s'. split; [by eapply runs_done|by apply H'].
    + exists (unwound s'). split; [|apply (proj1 (shows_stack [] s' A')), H'; congruence]. eapply runs_panic; [done..|].
      apply (resumable_iff _ _ _ _ Hc). congruence.
Qed.

(** The reference cache has one answer to each call. *)
Lemma call_det s x A y A1 y' A2 :
  Inv s → stack s = [] → shows s A → rcall x A y A1 → rcall x A y' A2 →
  y = y' ∧ (y ≠ Panicked PkCounterpart → A1 = A2).
Proof.
  intros I Hst H H1 H2.
  destruct (call_complete x A y A1 s I Hst H H1) as (n1 & s1 & Hn1 & Hs1).
  destruct (call_complete x A y' A2 s I Hst H H2) as (n2 & s2 & Hn2 & Hs2).
  specialize (Hn1 (n1 `max` n2) (Nat.le_max_l _ _)). specialize (Hn2 (n1 `max` n2) (Nat.le_max_r _ _)).
  rewrite Hn1 in Hn2.
  assert (y = y' ∧ s1 = s2) as [<- <-] by (destruct y, y'; cbn in Hn2; try discriminate Hn2; split; congruence).
  split; [done|]. intros Hy. eapply shows_unique; [by apply Hs1|by apply Hs2].
Qed.

Lemma history_det l A A' : rruns new_ref l A → rruns new_ref l A' → A = A'.
Proof.
  revert A A'. induction l as [|[x y] l IH]; intros A A' H H'; inversion H; inversion H'; subst; [done|].
  match goal with H1 : rruns _ l ?B1, H2 : rruns _ l ?B2 |- _ => assert (B1 = B2) as <- by (by apply IH); destruct (history_complete l B1 H1) as (s & Hs & Hsh) end.
  destruct (reach_Inv E any_op s (ex_intro _ l Hs)) as [I Hst].
  eapply call_det; [exact I|exact Hst|exact Hsh|eassumption|eassumption|done].
Qed.

Lemma history_shows l s A : runs E any_op init_st l s → rruns new_ref l A → shows s A.
Proof.
  intros Hs HA. destruct (history_sound l s Hs) as (A' & HA' & H). by rewrite (history_det l A A' HA HA').
Qed.
End RefCalls.

(** ** The kind of cans *)
Lemma kind_weaken ask :
  (∀ B h o A x A', rget ask Boxed B h o A x A' → rget ask Shared B h o A x A') ∧
  (∀ B o A x A', rbuild ask Boxed B o A x A' → rbuild ask Shared B o A x A') ∧
  (∀ B u p A x A', rrun ask Boxed B u p A x A' → rrun ask Shared B u p A x A').
Proof.
  apply ref_min; intros; try (by econstructor; eauto).
Qed.
Lemma call_kind ask x A y A' : (∀ o, ¬ mut_of x o) → rcall ask Boxed x A y A' → rcall ask Shared x A y A'.
Proof.
  destruct (kind_weaken ask) as (K1 & K2 & _). intros Hx Hc.
  destruct Hc; try (by econstructor; eauto).
  - exfalso. by eapply Hx.
  - exfalso. eapply Hx. right. eauto.
  - exfalso. eapply Hx. left. eauto.
  - exfalso. eapply Hx. left. eauto.
  - exfalso. eapply Hx. left. eauto.
  - exfalso. eapply Hx. left. eauto.
Qed.
Lemma history_kind ask l A0 A : (∀ x y o, (x, y) ∈ l → ¬ mut_of x o) → rruns ask Boxed A0 l A → rruns ask Shared A0 l A.
Proof.
  intros Hl Hr. induction Hr as [A|A0 l A x y A' Hr IH Hc Hy]; [constructor|].
  eapply rruns_call; [apply IH|apply call_kind; [|done]|done].
  - intros x' y' o Hin. apply (Hl x' y' o). by right.
  - intros o. apply (Hl x y o). by left.
Qed.
