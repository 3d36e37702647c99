(** Every run of builders is a sequence of small guarded transitions.  Used to
    prove invariants once per transition.  Proof device only; no property is
    stated in terms of [prim]. *)
From Verif Require Export System.
From stdpp Require Import relations.

(** The three updates of [track_dependency] after [make_known]. *)
Definition add_edge (ua wa : addr) (c : cache) : cache :=
  set_dependencies (insert_in ua wa) (set_leafs (.∖ {[wa]}) (set_dependents (insert_in wa ua) c)).

Lemma promise_Some o s d a : promise o s = Some (d, a) ↔ o ∈ alive s ∧ objs s !! o = Some (d, a).
Proof. unfold promise. case_bool_decide; naive_solver. Qed.

Section Prims.
Context (E : env).

Inductive prim : st → st → Prop :=
| pm_know s o d a : promise o s = Some (d, a) → prim s (set_ch (make_known a o (ch s)) s)
| pm_dyn s o d a v : promise o s = Some (d, a) → is_Some (known (ch s) !! a) →
    dyn_states (ch s) !! a = None → bd_init d = Some v →
    prim s (set_ch (set_dyn_states <[a := Dst (bd_sty d) v]> (ch s)) s)
| pm_push s o d a : promise o s = Some (d, a) → is_Some (known (ch s) !! a) →
    is_Some (dyn_states (ch s) !! a) → artifacts (ch s) !! a = None →
    prim s (log (ECall o) (set_reent (reent s || bool_decide (o ∈ stack s)) (set_stack (o :: stack s) s)))
| pm_edge s u du ua S w d wa : stack s = u :: S → objs s !! u = Some (du, ua) →
    promise w s = Some (d, wa) → is_Some (known (ch s) !! wa) →
    prim s (log (EResolve u w) (set_ch (add_edge ua wa (ch s)) s))
| pm_got s u S w d wa h rv : stack s = u :: S → promise w s = Some (d, wa) →
    (∃ e, artifacts (ch s) !! wa = Some e ∧ rv = conv h (ar_bin e)) ∨
    (∃ e t, rv = RvErr e ∧ trace s = EFailed w e :: t) →
    is_Some (known (ch s) !! wa) →
    (∃ du ua X, objs s !! u = Some (du, ua) ∧ dependents (ch s) !! wa = Some X ∧ ua ∈ X) →
    prim s (log (EGot u w rv) s)
| pm_set s u du ua S v : stack s = u :: S → objs s !! u = Some (du, ua) →
    is_Some (dyn_states (ch s) !! ua) →
    prim s (set_ch (set_dyn_states <[ua := Dst (bd_sty du) v]> (ch s)) s)
| pm_tick s : prim s (tock s)
| pm_newbin s : prim s (set_nbin (N.succ (nbin s)) s)
| pm_alloc s d o s' : alloc E d s = Some (o, s') → prim s s'
| pm_drop s w s' : drop_obj w s = Some s' → prim s s'
| pm_ok s u d ua S b : stack s = u :: S → objs s !! u = Some (d, ua) →
    prim s (set_stack S (log (EBuilt u b) (set_ch (set_artifacts <[ua := Art (bd_aty d) b]> (ch s)) s)))
| pm_fail s u S e : stack s = u :: S → prim s (set_stack S (log (EFailed u e) s)).

Notation prims := (rtc prim).

(** The state in which an outcome ends. *)
Definition ends {A} (x : outcome A) (s' : st) : Prop := (∃ a, x = Done a s') ∨ (∃ k, x = Panic k s').

(** All objects have numbers below the counter. *)
Definition objs_num (s : st) : Prop := ∀ o x, objs s !! o = Some x → (o < nobj s)%N.
(** And the builders being built are alive. *)
Definition objs_wf (s : st) : Prop := objs_num s ∧ ∀ o, o ∈ stack s → o ∈ alive s.

Lemma alloc_Some d s o s' : alloc E d s = Some (o, s') →
  o = nobj s ∧
  s' = St (ch s) (<[o := (d, e_ask E (tick s))]> (objs s)) ({[o]} ∪ alive s) (N.succ o)
          (nbin s) (S (tick s)) (stack s) (reent s) (trace s) ∧
  (∀ o' d', o' ∈ alive s → objs s !! o' ≠ Some (d', e_ask E (tick s))) ∧
  known (ch s) !! e_ask E (tick s) = None.
Proof.
  unfold alloc. destruct (_ || _) eqn:Hu; [done|]. intros [= <- <-].
  apply orb_false_iff in Hu as [H1%bool_decide_eq_false H2].
  split_and!; try done.
  - intros o' d' Ho' Hd. apply H1. exists o'. rewrite Hd. done.
  - unfold is_known in H2. apply bool_decide_eq_false in H2. by apply eq_None_not_Some.
Qed.

Lemma drop_Some o s s' : drop_obj o s = Some s' →
  o ∈ alive s ∧ o ∉ stack s ∧ s' = set_alive (alive s ∖ {[o]}) s.
Proof.
  unfold drop_obj. destruct (_ && _) eqn:Hu; [|done]. intros [= <-].
  apply andb_true_iff in Hu as [H1%bool_decide_eq_true H2%negb_true_iff%bool_decide_eq_false]. done.
Qed.

Lemma prim_objs_wf s s' : prim s s' → objs_wf s → objs_wf s'.
Proof.
  intros Hp [Hwf Hal]. destruct Hp; try (by split).
  - split; [exact Hwf|]. cbn. apply promise_Some in H as [H _]. intros o' [->|?]%elem_of_cons; auto.
  - apply alloc_Some in H as (-> & -> & _). split; [|cbn; set_solver]. intros o x; cbn.
    rewrite lookup_insert_Some. intros [[<- _]|[_ Ho%Hwf]]; lia.
  - apply drop_Some in H as (_ & Hn & ->). split; [exact Hwf|]. cbn. set_solver.
  - split; [exact Hwf|]. cbn. rewrite H in Hal. set_solver.
  - split; [exact Hwf|]. cbn. rewrite H in Hal. set_solver.
Qed.
Lemma prim_objs s s' o x : prim s s' → objs_wf s → objs s !! o = Some x → objs s' !! o = Some x.
Proof.
  intros Hp [Hwf _] Ho. destruct Hp; try exact Ho.
  - apply alloc_Some in H as (-> & -> & _). cbn. apply Hwf in Ho as Hlt.
    rewrite lookup_insert_ne by lia. done.
  - apply drop_Some in H as (_ & _ & ->). exact Ho.
Qed.
Lemma prims_objs_wf s s' : prims s s' → objs_wf s → objs_wf s'.
Proof. induction 1; eauto using prim_objs_wf. Qed.
Lemma prims_objs s s' o x : prims s s' → objs_wf s → objs s !! o = Some x → objs s' !! o = Some x.
Proof. induction 1; eauto using prim_objs, prim_objs_wf. Qed.

Definition edge (s : st) (ua wa : addr) : Prop := ∃ X, dependents (ch s) !! wa = Some X ∧ ua ∈ X.
Lemma prim_edge s s' ua wa : prim s s' → edge s ua wa → edge s' ua wa.
Proof.
  intros Hp (X & HX & Hin). destruct Hp; try (by exists X).
  - exists X. cbn. unfold make_known. by destruct (known (ch s) !! a).
  - unfold edge. cbn. unfold insert_in. destruct (decide (wa0 = wa)) as [->|Hne].
    + rewrite lookup_insert. eexists. split; [done|]. rewrite HX. cbn. set_solver.
    + rewrite lookup_insert_ne by done. by exists X.
  - apply alloc_Some in H as (-> & -> & _). by exists X.
  - apply drop_Some in H as (_ & _ & ->). by exists X.
Qed.
Lemma prims_edge s s' ua wa : prims s s' → edge s ua wa → edge s' ua wa.
Proof. induction 1; eauto using prim_edge. Qed.

Lemma prim_known_some s s' wa : prim s s' → is_Some (known (ch s) !! wa) → is_Some (known (ch s') !! wa).
Proof.
  intros Hp Hk. destruct Hp; try done.
  - cbn. unfold make_known. destruct (known (ch s) !! a) eqn:Ha; [done|]. cbn.
    destruct (decide (a = wa)) as [->|Hne]; [rewrite lookup_insert; eauto|by rewrite lookup_insert_ne].
  - by apply alloc_Some in H as (-> & -> & _).
  - by apply drop_Some in H as (_ & _ & ->).
Qed.

(** What is needed from the recursive [build]. *)
Definition bld_ok (bld : obj → st → outcome bres) : Prop :=
  ∀ o s d a, promise o s = Some (d, a) → artifacts (ch s) !! a = None → objs_wf s →
    (∀ s', ends (bld o s) s' → prims s s') ∧
    (∀ r s', bld o s = Done r s' → stack s' = stack s ∧ o ∈ alive s' ∧
       match r with BOk e => artifacts (ch s') !! a = Some e | BErr e => ∃ t, trace s' = EFailed o e :: t end).

Lemma get_with_prims bld h o s :
  bld_ok bld → objs_wf s →
  (∀ s', ends (get_with E bld h o s) s' → prims s s') ∧
  (∀ r s', get_with E bld h o s = Done r s' → stack s' = stack s ∧
     ∃ d a, promise o s' = Some (d, a) ∧
     ((∃ e, artifacts (ch s') !! a = Some e ∧ r = conv h (ar_bin e)) ∨
      (∃ e t, r = RvErr e ∧ trace s' = EFailed o e :: t))).
Proof.
  intros Hb Hwf. unfold get_with.
  destruct (promise o s) as [[d a]|] eqn:Hp; [|by split; [intros ? [[? ?]|[? ?]]|intros ? ?]].
  apply promise_Some in Hp as Hp'. destruct Hp' as [Hal Ho].
  destruct (how_legal E h); [|by split; [intros ? [[? ?]|[? ?]]|intros ? ?]].
  unfold lookup_art. destruct (artifacts (ch s) !! a) as [e|] eqn:He.
  - destruct (e_dbg E && _).
    { split; [|done]. intros s' [[? ?]|[? [= <- <-]]]; [done|]. constructor. }
    destruct (ar_ty e =? bd_aty d)%N.
    + split; [intros s' [[? [= <- <-]]|[? ?]]; [constructor|done]|].
      intros r s' [= <- <-]. split; [done|]. exists d, a. split; [done|]. left; eauto.
    + split; [|done]. intros s' [[? ?]|[? [= <- <-]]]; [done|]. constructor.
  - destruct (Hb o s d a Hp He Hwf) as [Hb1 Hb2].
    destruct (bld o s) as [[e|e] s1|k s1| |] eqn:Hbld;
      try (by split; [intros ? [[? ?]|[? ?]]|intros ? ?]).
    + destruct (Hb2 _ _ eq_refl) as (Hst & Hal' & Hart).
      assert (prims s s1) as Hps by (apply Hb1; left; eauto).
      destruct (ar_ty e =? bd_aty d)%N.
      * split; [intros s' [[? [= <- <-]]|[? ?]]; done|].
        intros r s' [= <- <-]. split; [done|]. exists d, a.
        split; [apply promise_Some; split; [done|]; eapply prims_objs; eauto|]. left; eauto.
      * split; [|done]. intros s' [[? ?]|[? [= <- <-]]]; done.
    + destruct (Hb2 _ _ eq_refl) as (Hst & Hal' & t & Ht).
      assert (prims s s1) as Hps by (apply Hb1; left; eauto).
      split; [intros s' [[? [= <- <-]]|[? ?]]; done|].
      intros r s' [= <- <-]. split; [done|]. exists d, a.
      split; [apply promise_Some; split; [done|]; eapply prims_objs; eauto|]. right; eauto.
    + split; [|done]. intros s' [[? ?]|[? [= <- <-]]]; [done|]. apply Hb1. right; eauto.
Qed.

Lemma make_known_known a o c : is_Some (known (make_known a o c) !! a).
Proof.
  unfold make_known. destruct (known c !! a) as [o'|] eqn:H; [by rewrite H|].
  cbn. rewrite lookup_insert. eauto.
Qed.

Lemma resolve_with_prims bld u du ua h w s S :
  bld_ok bld → objs_wf s → stack s = u :: S → objs s !! u = Some (du, ua) →
  (∀ s', ends (resolve_with E bld u ua h w s) s' → prims s s') ∧
  (∀ r s', resolve_with E bld u ua h w s = Done r s' → stack s' = stack s).
Proof.
  intros Hb Hwf Hst Hu. unfold resolve_with.
  destruct (promise w s) as [[d wa]|] eqn:Hp; [|by split; [intros ? [[? ?]|[? ?]]|intros ? ?]].
  assert (prim s (set_ch (make_known wa w (ch s)) s)) as Hk by (eapply pm_know; eauto).
  unfold track_dependency. destruct (e_dbg E && _).
  { split; [|done]. intros s' [[? ?]|[? [= <- <-]]]; [done|]. by apply rtc_once. }
  set (c' := set_dependencies _ _).
  set (s1 := log (EResolve u w) (set_ch c' s)).
  assert (prims s s1) as Hs1.
  { eapply rtc_l; [exact Hk|]. apply rtc_once.
    eapply (pm_edge (set_ch (make_known wa w (ch s)) s)); try done. apply make_known_known. }
  destruct (get_with_prims bld h w s1 Hb) as [G1 G2]; [done|].
  destruct (get_with E bld h w s1) as [r s2|k s2| |] eqn:Hg;
    try (by split; [intros ? [[? ?]|[? ?]]|intros ? ?]).
  - destruct (G2 _ _ eq_refl) as (Hst2 & d' & a' & Ho' & Hr).
    assert (prims s1 s2) as H12 by (apply G1; left; eauto).
    assert (prims s (log (EGot u w r) s2)) as H02.
    { eapply rtc_transitive; [exact Hs1|]. eapply rtc_r; [exact H12|].
      apply promise_Some in Hp as Hp'. destruct Hp' as [_ Hw].
      assert (objs s2 !! w = Some (d, wa)) as Hw2 by (eapply prims_objs; eauto).
      apply promise_Some in Ho' as Ho2. destruct Ho2 as [_ Ho2].
      assert (a' = wa) as -> by congruence.
      assert (∀ x y, prims x y → is_Some (known (ch x) !! wa) → is_Some (known (ch y) !! wa)) as Hkn.
      { induction 1; eauto using prim_known_some. }
      eapply pm_got; [by rewrite Hst2|exact Ho'|exact Hr| |].
      { eapply Hkn; [exact H12|]. cbn. apply make_known_known. }
      assert (edge s2 ua wa) as (X & HX & Hin).
      { eapply prims_edge; [exact H12|]. unfold edge. cbn. unfold insert_in. rewrite lookup_insert.
        eexists. split; [done|]. set_solver. }
      exists du, ua, X. split_and!; [|done..]. eapply prims_objs; eauto. }
    split.
    + intros s' [[? [= <- <-]]|[? ?]]; done.
    + intros r' s' [= <- <-]. done.
  - split; [|done]. intros s' [[? ?]|[? [= <- <-]]]; [done|].
    eapply rtc_transitive; [exact Hs1|]. apply G1. right; eauto.
Qed.

Lemma exec_prims bld u du ua S :
  bld_ok bld → ∀ p s, objs_wf s → stack s = u :: S → objs s !! u = Some (du, ua) →
  (∀ s', ends (exec E bld u ua (bd_sty du) p s) s' → prims s s') ∧
  (∀ r s', exec E bld u ua (bd_sty du) p s = Done r s' → stack s' = stack s).
Proof.
  intros Hb p.
  induction p as [r| |h w k IH|k IH|v p IH|k IH|v k IH|d k IH|w p IH]; intros s Hwf Hst Hu; cbn [exec].
  - split; [|naive_solver]. intros s' [[? [= <- <-]]|[? ?]]; done.
  - split; [|done]. intros s' [[? ?]|[? [= <- <-]]]; done.
  - destruct (resolve_with_prims bld u du ua h w s S Hb Hwf Hst Hu) as [R1 R2].
    destruct (resolve_with E bld u ua h w s) as [r s1|pk s1| |] eqn:Hr;
      try (by split; [intros ? [[? ?]|[? ?]]|intros ? ?]).
    + pose proof (R2 _ _ eq_refl) as Hst1.
      assert (prims s s1) as H01 by (apply R1; left; eauto).
      destruct (IH r s1) as [I1 I2].
      * by eapply prims_objs_wf.
      * congruence.
      * by eapply prims_objs.
      * split; [intros s' Hs'; eapply rtc_transitive; eauto|].
        intros r' s' Hs'. rewrite (I2 _ _ Hs'). done.
    + split; [|done]. intros s' [[? ?]|[? [= <- <-]]]; [done|]. apply R1. right; eauto.
  - destruct (my_state _ _ _ _) as [pk|v].
    + split; [|done]. intros s' [[? ?]|[? [= <- <-]]]; done.
    + by apply IH.
  - destruct (my_state _ _ _ _) as [pk|v'] eqn:Hm.
    + split; [|done]. intros s' [[? ?]|[? [= <- <-]]]; done.
    + set (s1 := set_ch _ s).
      assert (prim s s1) as H01.
      { eapply pm_set; eauto. unfold my_state in Hm. destruct (_ && _); [done|].
        destruct (dyn_states (ch s) !! ua); [eauto|done]. }
      destruct (IH s1) as [I1 I2]; [done..|].
      split; [intros s' Hs'; eapply rtc_l; eauto|]. exact I2.
  - destruct (IH (e_ask E (tick s)) (tock s)) as [I1 I2]; [done..|].
    split; [intros s' Hs'; eapply rtc_l; [apply pm_tick|]; eauto|]. exact I2.
  - destruct (IH (Bin (nbin s) v) (set_nbin (N.succ (nbin s)) s)) as [I1 I2]; [done..|].
    split; [intros s' Hs'; eapply rtc_l; [apply pm_newbin|]; eauto|]. exact I2.
  - destruct (alloc E d s) as [[o s1]|] eqn:Ha; [|by split; [intros ? [[? ?]|[? ?]]|intros ? ?]].
    assert (prim s s1) as H01 by (eapply pm_alloc; eauto).
    apply alloc_Some in Ha as Ha'. destruct Ha' as (_ & Hs1 & _).
    assert (stack s1 = stack s) as Hst1 by (by rewrite Hs1).
    destruct (IH o s1) as [I1 I2].
    + by eapply prim_objs_wf.
    + congruence.
    + by eapply prim_objs.
    + split; [intros s' Hs'; eapply rtc_l; eauto|]. intros r s' Hr. rewrite (I2 _ _ Hr). done.
  - destruct (drop_obj w s) as [s1|] eqn:Ha; [|by split; [intros ? [[? ?]|[? ?]]|intros ? ?]].
    assert (prim s s1) as H01 by (eapply pm_drop; eauto).
    apply drop_Some in Ha as Ha'. destruct Ha' as (_ & _ & Hs1).
    assert (stack s1 = stack s) as Hst1 by (by rewrite Hs1).
    destruct (IH s1) as [I1 I2].
    + by eapply prim_objs_wf.
    + congruence.
    + by eapply prim_objs.
    + split; [intros s' Hs'; eapply rtc_l; eauto|]. intros r s' Hr. rewrite (I2 _ _ Hr). done.
Qed.

Lemma make_known_idem a o c : make_known a o (make_known a o c) = make_known a o c.
Proof.
  unfold make_known at 1. destruct (make_known_known a o c) as [x ->]. done.
Qed.
Lemma make_known_fields a o c :
  artifacts (make_known a o c) = artifacts c ∧ dyn_states (make_known a o c) = dyn_states c ∧
  dependents (make_known a o c) = dependents c ∧ dependencies (make_known a o c) = dependencies c.
Proof. unfold make_known. by destruct (known c !! a). Qed.

(** [make_known] then [ensure_dyn_state]. *)
Lemma ensure_prims o s d a c2 r :
  promise o s = Some (d, a) →
  ensure_dyn_state a o (bd_sty d) (bd_init d) (make_known a o (ch s)) = (c2, r) →
  prims s (set_ch c2 s) ∧ artifacts c2 = artifacts (ch s) ∧ is_Some (known c2 !! a) ∧
  match r with inr _ => is_Some (dyn_states c2 !! a) | inl _ => True end.
Proof.
  intros Hp. unfold ensure_dyn_state. rewrite make_known_idem.
  assert (prim s (set_ch (make_known a o (ch s)) s)) as Hk by (eapply pm_know; eauto).
  pose proof (make_known_known a o (ch s)) as Hkn.
  destruct (make_known_fields a o (ch s)) as (Ha & Hs & _).
  destruct (dyn_states (make_known a o (ch s)) !! a) as [v|] eqn:Hv.
  - destruct (_ =? _)%N; intros [= <- <-]; split_and!; try done; try (by apply rtc_once); eauto.
  - destruct (bd_init d) as [v|] eqn:Hi; intros [= <- <-].
    + split_and!; try done.
      * eapply rtc_l; [exact Hk|]. apply rtc_once.
        eapply (pm_dyn (set_ch (make_known a o (ch s)) s)); eauto.
      * cbn. rewrite lookup_insert. eauto.
    + split_and!; try done. by apply rtc_once.
Qed.

Lemma build_bld_ok fuel : bld_ok (build E fuel).
Proof.
  induction fuel as [|fuel IH]; intros o s d a Hp Hna Hwf; cbn [build].
  { by split; [intros ? [[? ?]|[? ?]]|intros ? ?]. }
  rewrite Hp. destruct d as [aty sty init body].
  destruct (e_dbg E && _).
  { split; [|done]. intros s' [[? ?]|[? [= <- <-]]]; done. }
  destruct (ensure_dyn_state a o sty init (make_known a o (ch s))) as [c2 r] eqn:He.
  destruct (ensure_prims o s (BDef aty sty init body) a c2 r Hp He) as (P1 & Pa & Pk & Pd).
  destruct r as [k|v].
  { split; [|done]. intros s' [[? ?]|[? [= <- <-]]]; done. }
  apply promise_Some in Hp as Hp'. destruct Hp' as [Hal Ho].
  set (s1 := log _ _).
  assert (prims s s1) as P01.
  { eapply rtc_r; [exact P1|]. eapply (pm_push (set_ch c2 s)); eauto.
    - cbn. congruence. }
  destruct (exec_prims (build E fuel) o (BDef aty sty init body) a (stack s) IH body s1) as [X1 X2];
    [by eapply prims_objs_wf|done..|].
  cbn [bd_sty] in X1, X2.
  destruct (exec E (build E fuel) o a sty body s1) as [[b|e] s2|k s2| |] eqn:Hx;
    try (by split; [intros ? [[? ?]|[? ?]]|intros ? ?]).
  - assert (prims s s2) as P02 by (eapply rtc_transitive; [exact P01|]; apply X1; left; eauto).
    pose proof (X2 _ _ eq_refl) as Hst2. cbn in Hst2.
    cbn [artifacts set_artifacts]. rewrite lookup_insert.
    assert (prims s (set_stack (stack s) (log (EBuilt o b) (set_ch (set_artifacts <[a:=Art aty b]> (ch s2)) s2)))) as P03.
    { eapply rtc_r; [exact P02|].
      eapply (pm_ok s2 o (BDef aty sty init body) a (stack s) b); [done|].
      by eapply prims_objs. }
    split; [intros s' [[? [= <- <-]]|[? ?]]; done|].
    intros r s' [= <- <-]. split; [done|]. split; [|cbn; by rewrite lookup_insert].
    cbn. apply (prims_objs_wf _ _ P02 Hwf). rewrite Hst2. left.
  - assert (prims s s2) as P02 by (eapply rtc_transitive; [exact P01|]; apply X1; left; eauto).
    pose proof (X2 _ _ eq_refl) as Hst2. cbn in Hst2.
    assert (prims s (set_stack (stack s) (log (EFailed o e) s2))) as P03.
    { eapply rtc_r; [exact P02|]. eapply pm_fail. done. }
    split; [intros s' [[? [= <- <-]]|[? ?]]; done|].
    intros r s' [= <- <-]. split; [done|]. split; [|by eexists].
    cbn. apply (prims_objs_wf _ _ P02 Hwf). rewrite Hst2. left.
  - split; [|done]. intros s' [[? ?]|[? [= <- <-]]]; [done|].
    eapply rtc_transitive; [exact P01|]; apply X1; right; eauto.
Qed.

Lemma get_prims fuel h o s s' :
  objs_wf s → ends (get E fuel h o s) s' → prims s s'.
Proof. intros Hwf. apply get_with_prims; [apply build_bld_ok|done]. Qed.
Lemma get_stack fuel h o s r s' :
  objs_wf s → get E fuel h o s = Done r s' → stack s' = stack s.
Proof. intros Hwf H. eapply (get_with_prims (build E fuel) h o s); eauto using build_bld_ok. Qed.

End Prims.
