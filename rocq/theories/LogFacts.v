(** What the trace says about the cache: dependencies, artifacts, errors,
    dynamic states and known builders. *)
From Verif Require Export OrderFacts.
From stdpp Require Import relations.

Section LogFacts.
Context (E : env).
Notation prim := (prim E).
Notation prims := (rtc prim).

(** New events of a step. *)
Lemma prim_new s s' : prim s s' → ∃ l, trace s' = l ++ trace s.
Proof. apply prim_trace. Qed.

Lemma app_inv_tail_nil {A} (l l' : list A) : l' = l ++ l' → l = [].
Proof. intros H. apply (f_equal length) in H. rewrite app_length in H. destruct l; [done|cbn in H; lia]. Qed.
Lemma app_one {A} (x : A) (l l' : list A) : x :: l' = l ++ l' → l = [x].
Proof.
  intros H. change (x :: l') with ([x] ++ l') in H. by apply app_inv_tail in H.
Qed.

(** ** Recorded dependencies *)
Lemma depends_same_edges s s' u w :
  Inv s → (∀ o x, objs s !! o = Some x → objs s' !! o = Some x) →
  (∀ a o, known (ch s) !! a = Some o → known (ch s') !! a = Some o) →
  dependents (ch s') = dependents (ch s) →
  depends s' u w ↔ depends s u w.
Proof.
  intros I Ho Hk Hd. split.
  - intros (du & ua & dw & wa & X & H1 & H2 & H3 & H4 & H5 & H6). rewrite Hd in H5.
    assert (dep_rel (ch s) wa ua) as Hr by (unfold dep_rel; by rewrite H5).
    destruct (dep_rel_depends s wa ua I Hr) as (u' & w' & du' & dw' & G1 & G2 & G3 & G4 & G5).
    apply Hk in G2. apply Hk in G4. simplify_eq. done.
  - intros (du & ua & dw & wa & X & H1 & H2 & H3 & H4 & H5 & H6).
    exists du, ua, dw, wa, X. split_and!; [by apply Ho|by apply Hk|by apply Ho|by apply Hk|congruence|done].
Qed.

Lemma prim_depends s s' l u w :
  Inv s → prim s s' → trace s' = l ++ trace s →
  depends s' u w ↔ depends s u w ∨ EResolve u w ∈ l.
Proof.
  intros I Hp Hl.
  assert (∀ o x, objs s !! o = Some x → objs s' !! o = Some x) as Hob.
  { intros o x. apply (prim_objs E); [done|apply (i_wf _ I)]. }
  assert (∀ a o, known (ch s) !! a = Some o → known (ch s') !! a = Some o) as Hkn.
  { intros a o. by apply (prim_known E). }
  assert (dependents (ch s') = dependents (ch s) → EResolve u w ∉ l →
    depends s' u w ↔ depends s u w ∨ EResolve u w ∈ l) as Hsame.
  { intros Hd Hn. rewrite (depends_same_edges s s' u w I Hob Hkn Hd). tauto. }
  destruct Hp; cbn in Hl;
    try (apply app_inv_tail_nil in Hl as ->; apply Hsame; [done|set_solver]);
    try (apply app_one in Hl as ->; apply Hsame; [done|set_solver]).
  - apply app_inv_tail_nil in Hl as ->. apply Hsame; [|set_solver]. cbn. by apply make_known_fields.
  - (* edge *)
    apply app_one in Hl as ->. rewrite elem_of_list_singleton.
    destruct H2 as [w0' Hk]. assert (w0' = w0) as -> by (exact (Inv_known_is s w0 d wa w0' I H1 Hk)).
    apply promise_Some in H1 as [Hal Hw].
    destruct (i_stack _ I u0) as (_ & du' & ua' & Hu & Hku & _); [rewrite H; left|].
    assert (ua' = ua) as -> by congruence.
    split.
    + intros (du1 & ua1 & dw1 & wa1 & X & H1 & H2 & H3 & H4 & H5 & H6). cbn in *.
      unfold insert_in in H5. destruct (decide (wa1 = wa)) as [->|Hne].
      * rewrite lookup_insert in H5. assert (w = w0) as -> by congruence. injection H5 as <-.
        apply elem_of_union in H6 as [->%elem_of_singleton|H6].
        -- right. f_equal. congruence.
        -- left. destruct (dependents (ch s) !! wa) as [X|] eqn:HX; cbn in H6; [|set_solver].
           exists du1, ua1, dw1, wa, X. done.
      * rewrite lookup_insert_ne in H5 by done. left. exists du1, ua1, dw1, wa1, X. done.
    + intros [(du1 & ua1 & dw1 & wa1 & X & H1 & H2 & H3 & H4 & H5 & H6)|Heq].
      * destruct (decide (wa1 = wa)) as [->|Hne].
        -- exists du1, ua1, dw1, wa, ({[ua]} ∪ X). split_and!; try done; [|set_solver].
           cbn. unfold insert_in. rewrite lookup_insert, H5. done.
        -- exists du1, ua1, dw1, wa1, X. split_and!; try done. cbn. unfold insert_in.
           by rewrite lookup_insert_ne.
      * injection Heq as -> ->. eexists du, ua, d, wa, _. split_and!; try done.
        -- cbn. unfold insert_in. by rewrite lookup_insert.
        -- set_solver.
  - (* alloc *)
    apply alloc_Some in H as (-> & -> & _). cbn in Hl. apply app_inv_tail_nil in Hl as ->.
    apply Hsame; [done|set_solver].
  - apply drop_Some in H as (_ & _ & ->). cbn in Hl. apply app_inv_tail_nil in Hl as ->.
    apply Hsame; [done|set_solver].
Qed.

Lemma prims_depends s s' l u w :
  Inv s → prims s s' → trace s' = l ++ trace s →
  depends s' u w ↔ depends s u w ∨ EResolve u w ∈ l.
Proof.
  intros I Hp. revert l.
  refine (prims_ind_inv E (λ x, ∀ l, trace x = l ++ trace s → depends x u w ↔ depends s u w ∨ EResolve u w ∈ l) s s' I _ _ Hp).
  - intros l Hl. apply app_inv_tail_nil in Hl as ->. set_solver.
  - intros s1 s2 I1 _ Hs IH H l Hl. destruct (prims_trace E _ _ Hs) as [l1 Hl1].
    destruct (prim_new s1 s2 H) as [l2 Hl2]. rewrite (prim_depends s1 s2 l2 u w I1 H Hl2).
    rewrite (IH l1 Hl1). assert (l = l2 ++ l1) as ->.
    { rewrite Hl2, Hl1, app_assoc in Hl. by apply app_inv_tail in Hl. }
    rewrite elem_of_app. tauto.
Qed.

(** ** Dynamic states appear with their initial value *)
Lemma initial_mono s s' o : Inv s → prims s s' → knows s o → initial s' o = initial s o.
Proof.
  intros I Hp (d & a & Ho & _). unfold initial.
  assert (at_addr s' o d a) as Ho' by (by eapply prims_at). unfold at_addr in *. by rewrite Ho, Ho'.
Qed.
Lemma prim_state_new s s' o v :
  Inv s → prim s s' → o ∉ stack s → state_of s o = None → state_of s' o = Some v → initial s' o = Some v.
Proof.
  intros I Hp Hns Hc Hc'.
  assert (knows s' o) as Hk' by (destruct (decide (knows s' o)); [done|by rewrite state_unknown in Hc']).
  destruct Hk' as (d & a & Ho' & Hk'). rewrite (state_at s' o d a Ho' Hk') in Hc'.
  assert (at_addr s o d a → known (ch s) !! a = Some o → dyn_states (ch s) !! a = None) as Hold.
  { intros H1 H2. rewrite (state_at s o d a H1 H2) in Hc. by destruct (dyn_states (ch s) !! a). }
  unfold initial. unfold at_addr in Ho'. rewrite Ho'. destruct Hp; cbn in *.
  - destruct (make_known_fields a0 o0 (ch s)) as (_ & Hd & _). rewrite Hd in Hc'.
    unfold make_known in Hk'. destruct (known (ch s) !! a0) as [z|] eqn:Hz.
    + rewrite Hold in Hc' by done. done.
    + cbn in Hk'. destruct (decide (a0 = a)) as [->|Hne].
      * destruct (dyn_states (ch s) !! a) eqn:Hda; [|done].
        destruct (ci_dyn_known _ _ (i_c _ I) a) as [? ?]; [eauto|congruence].
      * rewrite lookup_insert_ne in Hk' by done. rewrite Hold in Hc' by done. done.
  - destruct (decide (a0 = a)) as [->|Hne].
    + rewrite lookup_insert in Hc'. injection Hc' as <-.
      destruct H0 as [o0' H0]. assert (o0' = o0) as -> by (exact (Inv_known_is s o0 d0 a o0' I H H0)).
      assert (o0 = o) as -> by congruence. apply promise_Some in H as [_ H]. congruence.
    + rewrite lookup_insert_ne in Hc' by done. by rewrite Hold in Hc'.
  - by rewrite Hold in Hc'.
  - by rewrite Hold in Hc'.
  - by rewrite Hold in Hc'.
  - destruct (decide (ua = a)) as [->|Hne].
    + exfalso. apply Hns. rewrite H.
      assert (o = u) as -> by (eapply (stack_addr s u S du a o d); done). left.
    + rewrite lookup_insert_ne in Hc' by done. by rewrite Hold in Hc'.
  - by rewrite Hold in Hc'.
  - by rewrite Hold in Hc'.
  - apply alloc_Some in H as (-> & -> & _ & Hna). cbn in *.
    destruct (decide (o = nobj s)) as [->|Hne].
    + rewrite lookup_insert in Ho'. injection Ho' as <- <-. congruence.
    + rewrite lookup_insert_ne in Ho' by done. by rewrite Hold in Hc'.
  - apply drop_Some in H as (_ & _ & ->). cbn in *. by rewrite Hold in Hc'.
  - by rewrite Hold in Hc'.
  - by rewrite Hold in Hc'.
Qed.

(** Without a call of [o], its state stays, or is initialised. *)
Lemma prims_state_cases s s' o :
  Inv s → prims s s' → o ∉ stack s → calls s' o = calls s o →
  (state_of s' o = state_of s o ∨ (state_of s o = None ∧ state_of s' o = initial s' o)) ∧ o ∉ stack s'.
Proof.
  intros I Hp Hns. 
  refine (prims_ind_inv E (λ x, calls x o = calls s o → (state_of x o = state_of s o ∨
     (state_of s o = None ∧ state_of x o = initial x o)) ∧ o ∉ stack x) s s' I _ _ Hp).
  - auto.
  - intros s1 s2 I1 I2 Hs IH H Hc.
    assert (prims s1 s2) as H' by (by apply rtc_once).
    pose proof (prims_calls E _ _ o Hs) as Hle1. pose proof (prims_calls E _ _ o H') as Hle2.
    assert (calls s1 o = calls s o) as Hc1 by lia. destruct (IH Hc1) as [IH1 IH2]. clear IH.
    assert (o ∉ stack s2) as Hn2.
    { destruct H; cbn in *; try done.
      - intros [->|?]%elem_of_cons; [|done]. rewrite calls_ECall, decide_True in Hc by done.
        change (S (calls s0 o0) = calls s o0) in Hc. lia.
      - by apply alloc_Some in H as (-> & -> & _).
      - by apply drop_Some in H as (_ & _ & ->).
      - rewrite H in IH2. set_solver.
      - rewrite H in IH2. set_solver. }
    split; [|done].
    destruct (state_of s1 o) as [v|] eqn:Hv.
    + destruct (prim_state E s1 s2 o v I1 H Hv IH2) as [Hv2 _]. rewrite Hv2.
      destruct IH1 as [IH1|[IH1a IH1b]]; [by left|right]. split; [done|]. rewrite IH1b. symmetry.
      apply initial_mono; [done..|]. destruct (decide (knows s1 o)); [done|].
      rewrite state_unknown in Hv; done.
    + assert (state_of s o = None) as Hs0.
      { destruct IH1 as [<-|[? _]]; done. }
      destruct (state_of s2 o) as [v|] eqn:Hv2; [|left; congruence].
      right. split; [done|]. symmetry. exact (prim_state_new s1 s2 o v I1 H IH2 Hv Hv2).
Qed.

(** ** Artifacts do not appear without a call *)
Lemma prims_cached_back s s' o :
  Inv s → prims s s' → o ∉ stack s → calls s' o = calls s o → cached s' o = cached s o.
Proof.
  intros I Hp Hns Hc. destruct (cached s o) as [b|] eqn:Hb.
  { by destruct (prims_cached E s s' o b I Hp Hns Hb). }
  assert (cached s' o = None ∧ o ∉ stack s') as [? _]; [|done]. revert Hc.
  refine (prims_ind_inv E (λ x, calls x o = calls s o → cached x o = None ∧ o ∉ stack x) s s' I _ _ Hp).
  - auto.
  - intros s1 s2 I1 I2 Hs IH H Hc. assert (prims s1 s2) as H' by (by apply rtc_once).
    pose proof (prims_calls E _ _ o Hs) as Hle1. pose proof (prims_calls E _ _ o H') as Hle2.
    destruct IH as [IH1 IH2]; [lia|]. split.
    + destruct (cached s2 o) as [b|] eqn:Hb2; [|done].
      destruct (prim_cached_new E s1 s2 o b I1 H Hb2) as [?|[_ ?]]; [congruence|done].
    + destruct (prims_state_cases s1 s2 o I1 H' IH2) as [_ ?]; [lia|done].
Qed.

(** ** The artifact of a builder is what its last successful build returned. *)
Definition from_build (s : st) (o : obj) (b : bin) : Prop :=
  ∃ l1 b' l2, trace s = l1 ++ EBuilt o b' :: l2 ∧ count (is_built o) l1 = 0 ∧ count (is_call o) l1 = 0 ∧
    bin_ptr b' = bin_ptr b ∧ (e_kind E = Shared → b' = b).
Definition all_built (s : st) : Prop := ∀ o b, cached s o = Some b → from_build s o b.

Lemma from_build_app s s' l o b :
  trace s' = l ++ trace s → count (is_built o) l = 0 → count (is_call o) l = 0 → from_build s o b → from_build s' o b.
Proof.
  intros Hl Hc Hcc (l1 & b' & l2 & Ht & Hc1 & Hc2 & H). exists (l ++ l1), b', l2.
  split_and!; [|by rewrite count_app, Hc, Hc1|by rewrite count_app, Hcc, Hc2|apply H..].
  by rewrite Hl, Ht, app_assoc.
Qed.
Lemma prim_cached_calls s s' o b : Inv s → prim s s' → cached s' o = Some b → calls s' o = calls s o.
Proof.
  intros I Hp Hb. destruct Hp; try done.
  - rewrite calls_ECall. destruct (decide _) as [->|]; [|done]. exfalso.
    apply promise_Some in H as [_ H]. unfold cached in Hb. cbn in Hb. rewrite H, H2 in Hb. by destruct (decide _).
  - by apply alloc_Some in H as (-> & -> & _).
  - by apply drop_Some in H as (_ & _ & ->).
Qed.
Lemma prim_all_built s s' : Inv s → prim s s' → all_built s → all_built s'.
Proof.
  intros I Hp Ha o b Hb. destruct (prim_cached_new E s s' o b I Hp Hb) as [Hb0|[Ht Hin]].
  - destruct (prim_new s s' Hp) as [l Hl]. destruct (prim_builds E s s' o Hp) as [Hc|(b' & _ & _ & Ht)].
    + pose proof (prim_cached_calls s s' o b I Hp Hb) as Hcc.
      eapply from_build_app; [exact Hl| | |by apply Ha].
      * unfold builds in Hc. rewrite Hl, count_app in Hc. lia.
      * unfold calls in Hcc. rewrite Hl, count_app in Hcc. lia.
    + pose proof (prim_ok_cached E s s' o b' I Hp Ht). assert (b' = b) as -> by congruence.
      exists [], b, (trace s). rewrite Ht. done.
  - exists [], b, (trace s). rewrite Ht. done.
Qed.
Lemma prims_all_built s s' : Inv s → prims s s' → all_built s → all_built s'.
Proof.
  intros I Hp Ha. refine (prims_ind_inv E all_built s s' I Ha _ Hp). intros s1 s2 I1 _ _ H1 H2. exact (prim_all_built s1 s2 I1 H2 H1).
Qed.

Lemma from_build_adds s s' l o b :
  adds l s s' → count (is_built o) l = 0 → count (is_call o) l = 0 → from_build s o b → from_build s' o b.
Proof. intros [Hl _]. by apply from_build_app. Qed.

Lemma forgets_all_built F G l s s' :
  forgets s F G s' → adds l s s' → (∀ o, count (is_built o) l = 0 ∧ count (is_call o) l = 0) → all_built s → all_built s'.
Proof.
  intros Hf Ha Hc H o b Hb. eapply from_build_adds; [done|apply Hc|apply Hc|]. apply H.
  assert (¬ F o) as Hn. { intros HF. rewrite (fg_gone _ _ _ _ Hf) in Hb; done. }
  by rewrite (fg_kept _ _ _ _ Hf) in Hb.
Qed.
Lemma writes_all_built s o f s' :
  e_kind E = Boxed → writes s o f s' → adds [] s s' → all_built s → all_built s'.
Proof.
  intros Hk Hw Ha H o' b Hb. destruct (decide (o' = o)) as [->|Hne].
  - rewrite (wr_cached _ _ _ _ Hw) in Hb. destruct (cached s o) as [b0|] eqn:Hb0; [|done]. injection Hb as <-.
    destruct (H o b0 Hb0) as (l1 & b' & l2 & Ht & Hc & Hcc & Hp & _). exists l1, b', l2. split_and!; [|done..|].
    + by rewrite (proj1 Ha).
    + by rewrite Hk.
  - rewrite (wr_others _ _ _ _ Hw) in Hb by done. eapply from_build_adds; [done|done|done|]. by apply H.
Qed.
Lemma sets_all_built s o v s' l :
  sets_state s o v s' → trace s' = l ++ trace s → (∀ o, count (is_built o) l = 0 ∧ count (is_call o) l = 0) → all_built s → all_built s'.
Proof.
  intros Hs Ht Hc H o' b Hb. eapply from_build_app; [done|apply Hc|apply Hc|]. apply H. by rewrite <- (ss_cached _ _ _ _ Hs).
Qed.

Lemma mut_boxed n x s s' o f : (x = OGetMut o f ∨ x = OLookupMut o f) → goes (step E n x s) s' → e_kind E = Boxed.
Proof.
  intros Hx Hg. destruct (e_kind E) eqn:Hk; [|done]. unfold goes in Hg.
  destruct Hx as [-> | ->]; cbn [step] in Hg; unfold op_get_mut, op_lookup_mut in Hg; rewrite Hk in Hg; by gd.
Qed.

Lemma step_all_built n x s s' :
  Inv s → stack s = [] → goes (step E n x s) s' → all_built s → all_built s'.
Proof.
  intros I Hst Hg H. pose proof (step_effect E n x s s' I Hst Hg) as He.
  destruct x as [d|o|h o|o f|h o|o f|o|o f|o|o|o| | | |o| ]; cbn [effect_of] in He;
    try (by eapply prims_all_built); try (by subst).
  - destruct He as (_ & _ & [[Ha Hw]|(s1 & s2 & I1 & Hst1 & Ha & _ & _ & Hf & Hp & Hw)]).
    + eapply writes_all_built; [|done..]. by eapply (mut_boxed n (OGetMut o f)); [left|].
    + assert (all_built s1) as H1.
      { destruct Hf as [[_ Hf]|[_ Hf]]; by eapply forgets_all_built. }
      apply (prims_all_built s1 s2 I1 Hp) in H1.
      destruct Hw as [->|[Ha2 Hw]]; [done|]. eapply writes_all_built; [|done..].
      by eapply (mut_boxed n (OGetMut o f)); [left|].
  - destruct He as (_ & _ & Ha & [[_ Hw]|[_ Hf]]); [|by eapply forgets_all_built].
    eapply writes_all_built; [|done..]. by eapply (mut_boxed n (OLookupMut o f)); [right|].
  - destruct He as (_ & [->|(_ & Hs & Ha)]); [done|]. eapply sets_all_built; [done|apply Ha|done|done].
  - destruct He as (_ & s1 & Hf & Ha & Hs). intros o' b Hb. eapply from_build_adds; [done|done|done|].
    rewrite (ss_cached _ _ _ _ Hs) in Hb. apply H.
    assert (¬ affected s o o') as Hn. { intros HF. rewrite (fg_gone _ _ _ _ Hf) in Hb; done. }
    by rewrite (fg_kept _ _ _ _ Hf) in Hb.
  - destruct He as (_ & Hf & Ha). by eapply forgets_all_built.
  - destruct He as (_ & Hf & Ha). by eapply forgets_all_built.
  - destruct He as (Hf & Ha). by eapply forgets_all_built.
  - destruct He as (Hf & Ha). by eapply forgets_all_built.
  - destruct He as [(Hf & Ha)| -> ]; [by eapply forgets_all_built|done].
Qed.
Lemma reach_all_built P s : reach_by E P s → all_built s.
Proof.
  intros [l Hr]. refine (runs_inv E P all_built init_st l s Inv_init eq_refl _ _ Hr); [done|].
  intros n x s1 s2 I1 Hst1 H1 _ Hg. exact (step_all_built n x s1 s2 I1 Hst1 Hg H1).
Qed.

(** ** Errors *)
Definition errors_logged (s : st) : Prop :=
  ∀ l1 u w e l2, trace s = l1 ++ EGot u w (RvErr e) :: l2 → ∃ l3, l2 = EFailed w e :: l3.
Lemma errors_logged_cons e s s' : errors_logged s → trace s' = e :: trace s → 
  (∀ u w x, e = EGot u w (RvErr x) → ∃ l3, trace s = EFailed w x :: l3) → errors_logged s'.
Proof.
  clear E. intros H Ht He l1 u w x l2 Heq. rewrite Ht in Heq. destruct l1 as [|y l1].
  - injection Heq as -> <-. eauto.
  - injection Heq as -> Heq. by eapply H.
Qed.
Lemma prim_errors s s' : prim s s' → errors_logged s → errors_logged s'.
Proof.
  intros Hp H. destruct Hp; try done; try (by eapply errors_logged_cons).
  - eapply (errors_logged_cons _ s); [done|done|]. intros u' w' x [= <- <- ->].
    destruct H2 as [(e & _ & Hc)|(e & t & [= ->] & Ht)]; [by destruct h|eauto].
  - apply alloc_Some in H0 as (-> & -> & _). done.
  - apply drop_Some in H0 as (_ & _ & ->). done.
Qed.
Lemma prims_errors s s' : prims s s' → errors_logged s → errors_logged s'.
Proof. induction 1; eauto using prim_errors. Qed.

End LogFacts.
