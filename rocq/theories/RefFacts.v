(** The model of the code refines the reference cache: elementary updates. *)
From Verif Require Export Reference DepFacts.
From stdpp Require Import relations.

Lemma shows_init : shows init_st new_ref.
Proof.
  split; try done.
  - intros o. split; [set_solver|]. intros (d & a & Ha & _). unfold at_addr in Ha. cbn in Ha. by rewrite lookup_empty in Ha.
  - intros u w. split; [set_solver|]. intros (d & a & ? & ? & ? & Ha & _). unfold at_addr in Ha. cbn in Ha. by rewrite lookup_empty in Ha.
  - set_solver.
Qed.

(** At most one reference state is shown. *)
Lemma shows_unique s A A' : shows s A → shows s A' → A = A'.
Proof.
  intros H H'. destruct A as [a1 a2 a3 a4 a5 a6 a7 a8 a9 a10 a11], A' as [b1 b2 b3 b4 b5 b6 b7 b8 b9 b10 b11].
  pose proof (sh_who _ _ H) as E6. pose proof (sh_live _ _ H) as E7. pose proof (sh_nobj _ _ H) as E8.
  pose proof (sh_nbin _ _ H) as E9. pose proof (sh_tick _ _ H) as E10. pose proof (sh_log _ _ H) as E11.
  rewrite <- (sh_who _ _ H') in E6. rewrite <- (sh_live _ _ H') in E7. rewrite <- (sh_nobj _ _ H') in E8.
  rewrite <- (sh_nbin _ _ H') in E9. rewrite <- (sh_tick _ _ H') in E10. rewrite <- (sh_log _ _ H') in E11. cbn in *. subst.
  assert (a1 = b1) as -> by (apply map_eq; intros o; etrans; [exact (sh_art _ _ H o)|symmetry; exact (sh_art _ _ H' o)]).
  assert (a2 = b2) as -> by (apply map_eq; intros o; etrans; [exact (sh_state _ _ H o)|symmetry; exact (sh_state _ _ H' o)]).
  assert (a3 = b3) as -> by (apply set_eq; intros o; etrans; [exact (sh_known _ _ H o)|symmetry; exact (sh_known _ _ H' o)]).
  assert (a4 = b4) as ->.
  { apply set_eq; intros [u w]. etrans; [exact (sh_deps _ _ H u w)|symmetry; exact (sh_deps _ _ H' u w)]. }
  assert (a5 = b5) as -> by (apply set_eq; intros o; etrans; [exact (sh_stray _ _ H o)|symmetry; exact (sh_stray _ _ H' o)]).
  done.
Qed.

Lemma shows_log e s A : shows s A → shows (log e s) (r_note e A).
Proof. intros H. split; try apply H. cbn. by rewrite (sh_log _ _ H). Qed.
Lemma shows_tock s A : shows s A → shows (tock s) (r_tock A).
Proof. intros H. split; try apply H. cbn. by rewrite (sh_tick _ _ H). Qed.
Lemma shows_newbin s A : shows s A → shows (set_nbin (N.succ (nbin s)) s) (r_newbin A).
Proof. intros H. split; try apply H. cbn. by rewrite (sh_nbin _ _ H). Qed.
Lemma shows_stack x s A : shows s A ↔ shows (set_stack x s) A.
Proof. split; intros H; split; apply H. Qed.
Lemma shows_reent x s A : shows s A → shows (set_reent x s) A.
Proof. intros H. split; apply H. Qed.

Lemma r_addr_at s A o d a : shows s A → objs s !! o = Some (d, a) → r_addr A o = Some a ∧ r_def A o = Some d ∧ r_addrs A o = {[a]}.
Proof. intros H Ho. unfold r_addrs, r_def, r_addr. rewrite (sh_who _ _ H), Ho. done. Qed.
Lemma r_def_at s A o d : shows s A → r_def A o = Some d → ∃ a, objs s !! o = Some (d, a).
Proof.
  intros H. unfold r_def. rewrite (sh_who _ _ H). destruct (objs s !! o) as [[d' a]|]; cbn; [|done]. intros [= ->]. eauto.
Qed.

(** ** Making known *)
Lemma know_obs s o d a c :
  Inv s → promise o s = Some (d, a) → known c = known (make_known a o (ch s)) →
  (∀ w, knows (set_ch c s) w ↔ knows s w ∨ w = o) ∧
  (artifacts c = artifacts (ch s) → ∀ w, cached (set_ch c s) w = cached s w) ∧
  (dyn_states c = dyn_states (ch s) → ∀ w, state_of (set_ch c s) w = state_of s w) ∧
  (dependents c = dependents (ch s) → ∀ u w, depends (set_ch c s) u w ↔ depends s u w).
Proof.
  intros I Hp Hkn. apply promise_Some in Hp as Hp'. destruct Hp' as [Hal Ho].
  assert (∀ a' o', known c !! a' = Some o' ↔ known (ch s) !! a' = Some o' ∨ (a' = a ∧ o' = o)) as Hknown.
  { intros a' o'. rewrite Hkn. split.
    - unfold make_known. destruct (known (ch s) !! a) as [z|] eqn:Ha; [auto|]. cbn.
      intros [[<- <-]|[? ?]]%lookup_insert_Some; auto.
    - intros [H|[-> ->]]; [by apply make_known_mono|]. unfold make_known.
      destruct (known (ch s) !! a) as [z|] eqn:Ha; [|cbn; by rewrite lookup_insert].
      rewrite Ha. f_equal. exact (Inv_known_is s o d a z I Hp Ha). }
  assert (∀ x, is_Some (artifacts (ch s) !! x) ∨ is_Some (dyn_states (ch s) !! x) → x = a → known (ch s) !! a = Some o) as Hdk.
  { intros x Hx ->. assert (is_Some (known (ch s) !! a)) as [z Hz].
    { apply (ci_dyn_known _ _ (i_c _ I)). destruct Hx; [by apply (ci_art_dyn _ _ (i_c _ I))|done]. }
    rewrite Hz. f_equal. exact (Inv_known_is s o d a z I Hp Hz). }
  split_and!.
  - intros w. split.
    + intros (d' & a' & Hw & Hk). cbn in Hk. apply Hknown in Hk as [Hk|[-> ->]]; [|auto]. left. by exists d', a'.
    + intros [(d' & a' & Hw & Hk)| ->].
      * exists d', a'. split; [done|]. cbn. apply Hknown. auto.
      * exists d, a. split; [done|]. cbn. apply Hknown. auto.
  - intros Ha w. unfold cached. cbn. rewrite Ha. destruct (objs s !! w) as [[d' a']|] eqn:Hw; [|done].
    destruct (decide (known c !! a' = Some w)) as [Hk|Hk], (decide (known (ch s) !! a' = Some w)) as [Hk'|Hk']; try done.
    + apply Hknown in Hk as [?|[-> ->]]; [done|]. destruct (artifacts (ch s) !! a) eqn:Hx; [|done]. exfalso. apply Hk', (Hdk a); eauto.
    + exfalso. apply Hk, Hknown. auto.
  - intros Ha w. unfold state_of. cbn. rewrite Ha. destruct (objs s !! w) as [[d' a']|] eqn:Hw; [|done].
    destruct (decide (known c !! a' = Some w)) as [Hk|Hk], (decide (known (ch s) !! a' = Some w)) as [Hk'|Hk']; try done.
    + apply Hknown in Hk as [?|[-> ->]]; [done|]. destruct (dyn_states (ch s) !! a) eqn:Hx; [|done]. exfalso. apply Hk', (Hdk a); eauto.
    + exfalso. apply Hk, Hknown. auto.
  - intros Hdt u w. split.
    + intros (du & ua & dw & wa & X & Hu & Hku & Hw & Hkw & HX & Hin). cbn in *. rewrite Hdt in HX.
      destruct (ci_edge_known _ _ (i_c _ I) wa ua) as [[w' Hw'] [u' Hu']]; [unfold dep_rel; by rewrite HX|].
      exists du, ua, dw, wa, X. split_and!; try done.
      * apply Hknown in Hku as [?|[-> ->]]; [done|]. assert (u' = o) as -> by exact (Inv_known_is s o d a u' I Hp Hu'). done.
      * apply Hknown in Hkw as [?|[-> ->]]; [done|]. assert (w' = o) as -> by exact (Inv_known_is s o d a w' I Hp Hw'). done.
    + intros (du & ua & dw & wa & X & Hu & Hku & Hw & Hkw & HX & Hin).
      exists du, ua, dw, wa, X. cbn. rewrite Hdt, !Hknown. split_and!; auto.
Qed.

Lemma stray_known c a o x :
  (x ∈ leafs (make_known a o c) ∧ known (make_known a o c) !! x = None) ↔ (x ∈ leafs c ∧ known c !! x = None) ∧ x ≠ a.
Proof.
  unfold make_known. destruct (known c !! a) as [z|] eqn:Hz.
  - split; [|tauto]. intros [? H]. split; [done|]. intros ->. congruence.
  - cbn. rewrite lookup_insert_None, elem_of_union, elem_of_singleton. naive_solver.
Qed.

Lemma shows_meet s A o d a :
  Inv s → shows s A → promise o s = Some (d, a) →
  shows (set_ch (make_known a o (ch s)) s) (r_meet o A).
Proof.
  intros I H Hp. destruct (know_obs s o d a (make_known a o (ch s)) I Hp eq_refl) as (H1 & H2 & H3 & H4).
  destruct (make_known_fields a o (ch s)) as (F1 & F2 & F3 & F4).
  destruct (r_addr_at s A o d a H) as (_ & _ & Hra); [by apply promise_Some in Hp as [_ ?]|].
  split; cbn; try apply H.
  - intros w. rewrite H2 by done. apply H.
  - intros w. rewrite H3 by done. apply H.
  - intros w. rewrite elem_of_union, elem_of_singleton, H1, (sh_known _ _ H). tauto.
  - intros u w. rewrite H4 by done. apply H.
  - intros x. rewrite stray_known, elem_of_difference, (sh_stray _ _ H), Hra, elem_of_singleton. tauto.
Qed.

(** ** Setting a state, an artifact *)
Lemma shows_put s A o d a t v :
  Inv s → shows s A → objs s !! o = Some (d, a) → known (ch s) !! a = Some o →
  shows (set_ch (set_dyn_states <[a := Dst t v]> (ch s)) s) (r_put o v A).
Proof.
  intros I H Ho Hk.
  split; cbn; try apply H.
  - intros w. destruct (decide (w = o)) as [->|Hne].
    + rewrite lookup_insert. symmetry. etrans; [exact (state_at (set_ch (set_dyn_states <[a := Dst t v]> (ch s)) s) o d a Ho Hk)|]. cbn. by rewrite lookup_insert.
    + rewrite lookup_insert_ne by done. rewrite (sh_state _ _ H). unfold state_of. cbn.
      destruct (objs s !! w) as [[d' a']|] eqn:Hw; [|done].
      destruct (decide _) as [Hk'|Hk']; [|done]. rewrite lookup_insert_ne; [done|]. intros <-. congruence.
Qed.

Lemma shows_store s A o d a t b :
  Inv s → shows s A → objs s !! o = Some (d, a) → known (ch s) !! a = Some o →
  shows (set_ch (set_artifacts <[a := Art t b]> (ch s)) s) (r_store o b A).
Proof.
  intros I H Ho Hk.
  split; cbn; try apply H.
  - intros w. destruct (decide (w = o)) as [->|Hne].
    + rewrite lookup_insert. symmetry. etrans; [exact (cached_at (set_ch (set_artifacts <[a := Art t b]> (ch s)) s) o d a Ho Hk)|]. cbn. by rewrite lookup_insert.
    + rewrite lookup_insert_ne by done. rewrite (sh_art _ _ H). unfold cached. cbn.
      destruct (objs s !! w) as [[d' a']|] eqn:Hw; [|done].
      destruct (decide _) as [Hk'|Hk']; [|done]. rewrite lookup_insert_ne; [done|]. intros <-. congruence.
Qed.

Lemma shows_write s A o d a f :
  Inv s → shows s A → promise o s = Some (d, a) →
  shows (set_ch (write_art a f (ch s)) s) (r_write o f A).
Proof.
  intros I H Hp. pose proof (write_effect s o d a f I Hp) as Hw. split; cbn; try apply H.
  - intros w. destruct (decide (w = o)) as [->|Hne].
    + rewrite lookup_alter, (sh_art _ _ H). symmetry. apply (wr_cached _ _ _ _ Hw).
    + rewrite lookup_alter_ne by done. rewrite (wr_others _ _ _ _ Hw) by done. apply H.
Qed.

(** ** Allocation *)
Section Alloc.
Context (E : env).

Lemma shows_free s A a :
  Inv s → shows s A →
  r_free A a ↔ (∀ o d, o ∈ alive s → objs s !! o ≠ Some (d, a)) ∧ known (ch s) !! a = None.
Proof.
  intros I H. unfold r_free, r_addr. rewrite (sh_who _ _ H). setoid_rewrite (sh_live _ _ H). setoid_rewrite (sh_known _ _ H). split.
  - intros Hf. split.
    + intros o d Hal Ho. apply (Hf o (or_introl Hal)). by rewrite Ho.
    + destruct (known (ch s) !! a) as [o|] eqn:Hk; [|done]. exfalso.
      destruct (knows_known s a o I Hk) as (d & Hat & Hkn). apply (Hf o (or_intror Hkn)). unfold at_addr in Hat. by rewrite Hat.
  - intros [Hf Hk] o Ho Ha. destruct (objs s !! o) as [[d a']|] eqn:Hob; [|done]. cbn in Ha. injection Ha as ->.
    destruct Ho as [Ho|(d' & a' & Hat & Hk')].
    + by apply (Hf o d Ho).
    + unfold at_addr in Hat. assert (a' = a) as -> by congruence. congruence.
Qed.

Lemma alloc_iff s A d :
  Inv s → shows s A →
  match alloc E d s with
  | Some (o, s') => r_free A (e_ask E (r_tick A)) ∧ o = r_nobj A ∧ shows s' (r_alloc d (e_ask E (r_tick A)) A)
  | None => ¬ r_free A (e_ask E (r_tick A))
  end.
Proof.
  intros I H. pose proof (shows_free s A (e_ask E (r_tick A)) I H) as Hfr. rewrite (sh_tick _ _ H) in *.
  destruct (alloc E d s) as [[o s']|] eqn:Ha.
  - pose proof Ha as Ha'. apply alloc_Some in Ha as (-> & -> & Hf & Hk).
    assert (prim E s _) as Hpm by (eapply pm_alloc; exact Ha'). 
    split; [|split].
    + apply Hfr. split; [|done]. intros o d' Ho. by apply Hf.
    + by rewrite (sh_nobj _ _ H).
    + assert (objs s !! nobj s = None) as Hn.
      { destruct (objs s !! nobj s) eqn:Hn; [|done]. apply (i_num _ I) in Hn. lia. }
      assert (∀ a' : addr, known (ch s) !! a' ≠ Some (nobj s)) as Hkn.
      { intros a' Hk'. destruct (ci_known_obj _ _ (i_c _ I) a' _ Hk') as [d' Hd']. congruence. }
      assert (∀ w dw aw, known (ch s) !! aw = Some w → (<[nobj s:=(d, e_ask E (tick s))]> (objs s) !! w = Some (dw, aw)) ↔ objs s !! w = Some (dw, aw)) as Hat.
      { intros w dw aw Hkw. rewrite lookup_insert_ne; [done|]. intros <-. by eapply Hkn. }
      split; cbn; try apply H.
      * intros w. rewrite (sh_art _ _ H). unfold cached. cbn. destruct (decide (w = nobj s)) as [->|Hne].
        -- rewrite lookup_insert, Hn. destruct (decide _) as [Hk'|]; [|done]. by apply Hkn in Hk'.
        -- by rewrite lookup_insert_ne.
      * intros w. rewrite (sh_state _ _ H). unfold state_of. cbn. destruct (decide (w = nobj s)) as [->|Hne].
        -- rewrite lookup_insert, Hn. destruct (decide _) as [Hk'|]; [|done]. by apply Hkn in Hk'.
        -- by rewrite lookup_insert_ne.
      * intros w. rewrite (sh_known _ _ H). unfold knows, at_addr. cbn. split; intros (dw & aw & H1 & H2); exists dw, aw; (split; [|done]); by apply (Hat w).
      * intros u w. rewrite (sh_deps _ _ H). unfold depends, at_addr. cbn.
        split; intros (du & ua & dw & wa & X & H1 & H2 & H3 & H4 & H5 & H6); exists du, ua, dw, wa, X; split_and!; try done; (by apply (Hat u)) || (by apply (Hat w)).
      * by rewrite (sh_nobj _ _ H), (sh_who _ _ H).
      * by rewrite (sh_nobj _ _ H), (sh_live _ _ H).
      * by rewrite (sh_nobj _ _ H).
      * by rewrite (sh_tick _ _ H).
  - rewrite Hfr. intros [Hf Hk]. unfold alloc in Ha. destruct (_ || _) eqn:Hu; [|done].
    apply orb_true_iff in Hu as [Hu|Hu].
    + apply bool_decide_eq_true in Hu as (o & Ho & Hoa). destruct (objs s !! o) as [[d' a']|] eqn:Hob; [|done].
      cbn in Hoa. injection Hoa as ->. by apply (Hf o d' Ho).
    + unfold is_known in Hu. apply bool_decide_eq_true in Hu as [? Hu]. congruence.
Qed.

Lemma drop_iff s A o :
  shows s A →
  match drop_obj o s with
  | Some s' => o ∈ r_live A ∧ o ∉ stack s ∧ shows s' (r_drop o A)
  | None => ¬ (o ∈ r_live A ∧ o ∉ stack s)
  end.
Proof.
  intros H. unfold drop_obj. rewrite (sh_live _ _ H).
  destruct (decide (o ∈ alive s)) as [Ha|Ha]; [|rewrite bool_decide_eq_false_2 by done; cbn; tauto].
  rewrite bool_decide_eq_true_2 by done. cbn.
  destruct (decide (o ∈ stack s)) as [Hs|Hs]; [rewrite bool_decide_eq_true_2 by done; cbn; tauto|].
  rewrite bool_decide_eq_false_2 by done. cbn. split_and!; [done..|].
  split; cbn; try apply H. by rewrite (sh_live _ _ H).
Qed.

(** ** Tracking a dependency *)
Lemma shows_track s A u S du ua w d wa :
  Inv s → shows s A → stack s = u :: S → objs s !! u = Some (du, ua) → promise w s = Some (d, wa) →
  ∃ c, track_dependency (e_dbg E) ua wa w (ch s) = COk c ∧
    rtc (prim E) s (log (EResolve u w) (set_ch c s)) ∧
    shows (log (EResolve u w) (set_ch c s)) (r_note (EResolve u w) (r_use u w (r_meet w A))).
Proof.
  intros I H Hst Hu Hp. unfold track_dependency.
  destruct (i_stack _ I u) as (Hual & du' & ua' & Hu' & Huk & Hud); [rewrite Hst; left|].
  assert (ua' = ua) as -> by congruence.
  assert (is_known (make_known wa w (ch s)) ua = true) as ->.
  { unfold is_known. apply bool_decide_eq_true. apply (make_known_mono wa w) in Huk. eauto. }
  rewrite andb_false_r. set (c := set_dependencies _ _). exists c. split; [done|].
  assert (prim E s (set_ch (make_known wa w (ch s)) s)) as Hk by (eapply pm_know; eauto).
  assert (rtc (prim E) s (log (EResolve u w) (set_ch c s))) as Hpr.
  { eapply rtc_l; [exact Hk|]. apply rtc_once.
    eapply (pm_edge E (set_ch (make_known wa w (ch s)) s)); try done. apply make_known_known. }
  split; [done|].
  pose proof (prims_depends E s (log (EResolve u w) (set_ch c s)) [EResolve u w]) as Hdep.
  destruct (know_obs s w d wa c I Hp) as (H1 & H2 & H3 & _); [done|].
  destruct (make_known_fields wa w (ch s)) as (F1 & F2 & F3 & F4).
  destruct (r_addr_at s A w d wa H) as (_ & _ & Hra); [by apply promise_Some in Hp as [_ ?]|].
  apply shows_log. split; cbn -[c]; try apply H.
  - intros x. rewrite H2 by done. apply H.
  - intros x. rewrite H3 by done. apply H.
  - intros x. rewrite H1, elem_of_union, elem_of_singleton, (sh_known _ _ H). tauto.
  - intros x y. assert (depends (set_ch c s) x y ↔ depends s x y ∨ EResolve x y ∈ [EResolve u w]) as ->.
    { exact (Hdep x y I Hpr eq_refl). }
    rewrite elem_of_union, elem_of_singleton, (sh_deps _ _ H), elem_of_list_singleton. naive_solver.
  - intros x. cbn. rewrite elem_of_difference, Hra, (sh_stray _ _ H), elem_of_singleton.
    rewrite <- (stray_known (ch s) wa w x), elem_of_difference, elem_of_singleton.
    assert (known (make_known wa w (ch s)) !! wa ≠ None) as Hn by (destruct (make_known_known wa w (ch s)) as [? ->]; done).
    destruct (decide (x = wa)) as [->|Hne]; naive_solver.
Qed.
End Alloc.

(** ** Forgetting *)
Lemma r_unknow_empty A : r_unknow ∅ A = A.
Proof.
  destruct A as [a1 a2 a3 a4 a5 a6 a7 a8 a9 a10 a11]. unfold r_unknow. cbn. f_equal.
  - apply map_filter_id. intros. set_solver.
  - set_solver.
Qed.
Lemma shows_forgets s A s' F G (F0 G0 : obj → Prop) st' n' l' :
  shows s A → forgets s F0 G0 s' → (∀ w, w ∈ F ↔ F0 w) → (∀ w, w ∈ G ↔ G0 w) →
  (∀ a, a ∈ st' ↔ a ∈ leafs (ch s') ∧ known (ch s') !! a = None) →
  nobj s' = nobj s → nbin s' = nbin s → n' = tick s' → l' = trace s' →
  shows s' (let B := r_unknow G (r_forget F A) in
    Ref (r_art B) (r_state B) (r_known B) (r_deps B) st' (r_who B) (r_live B) (r_nobj B) (r_nbin B) n' l').
Proof.
  intros H Hf HF HG Hst Hno Hnb -> ->. split; cbn; try done.
  - intros o. destruct (decide (o ∈ F)) as [Ho|Ho].
    + rewrite (fg_gone _ _ _ _ Hf) by (by apply HF). apply map_filter_lookup_None. right. intros b _ Hn. by apply Hn.
    + rewrite (fg_kept _ _ _ _ Hf) by (by rewrite <- HF). rewrite <- (sh_art _ _ H).
      destruct (r_art A !! o) as [b|] eqn:Hb; [by apply map_filter_lookup_Some|apply map_filter_lookup_None; by left].
  - intros o. destruct (decide (o ∈ G)) as [Ho|Ho].
    + rewrite (fg_state_gone _ _ _ _ Hf) by (by apply HG). apply map_filter_lookup_None. right. intros b _ Hn. by apply Hn.
    + rewrite (fg_state_kept _ _ _ _ Hf) by (by rewrite <- HG). rewrite <- (sh_state _ _ H).
      destruct (r_state A !! o) as [b|] eqn:Hb; [by apply map_filter_lookup_Some|apply map_filter_lookup_None; by left].
  - intros o. rewrite elem_of_difference, (fg_knows _ _ _ _ Hf), (sh_known _ _ H), HG. done.
  - intros u w. rewrite elem_of_filter, (fg_depends _ _ _ _ Hf), (sh_deps _ _ H). cbn. rewrite !HF. tauto.
  - by rewrite (fg_objs _ _ _ _ Hf), (sh_who _ _ H).
  - rewrite (sh_live _ _ H). apply set_eq. intros w. symmetry. apply (fg_live _ _ _ _ Hf).
  - by rewrite Hno, (sh_nobj _ _ H).
  - by rewrite Hnb, (sh_nbin _ _ H).
Qed.
