(** The invariant holds in every reachable state, and what panics can occur. *)
From Verif Require Export MutFacts.
From stdpp Require Import relations.

Lemma CInv_empty ob : CInv ob empty_cache.
Proof.
  assert (∀ x y, ¬ dep_rel empty_cache x y) as Hd.
  { intros x y H. unfold dep_rel in H. cbn in H. rewrite lookup_empty in H. cbn in H. set_solver. }
  split.
  - intros x y. cbn. rewrite !lookup_empty. cbn. set_solver.
  - intros a [? H]. cbn in H. by rewrite lookup_empty in H.
  - intros a [? H]. cbn in H. by rewrite lookup_empty in H.
  - intros x y H. by apply Hd in H.
  - intros a [? H]. cbn in H. by rewrite lookup_empty in H.
  - intros a o H. cbn in H. by rewrite lookup_empty in H.
  - intros a e o d H. cbn in H. by rewrite lookup_empty in H.
  - intros a e o d H. cbn in H. by rewrite lookup_empty in H.
Qed.

Lemma CInv_mono ob ob' c :
  CInv ob c → (∀ o x, ob !! o = Some x → ob' !! o = Some x) → CInv ob' c.
Proof.
  intros I Hm. split; try apply I.
  - intros a o Ha. destruct (ci_known_obj _ _ I a o Ha) as [d Hd]. eauto.
  - intros a e o d He Ha Hd. destruct (ci_known_obj _ _ I a o Ha) as [d' Hd'].
    apply Hm in Hd' as Hd''. assert (d' = d) as -> by congruence. by eapply (ci_art_ty _ _ I).
  - intros a e o d He Ha Hd. destruct (ci_known_obj _ _ I a o Ha) as [d' Hd'].
    apply Hm in Hd' as Hd''. assert (d' = d) as -> by congruence. by eapply (ci_dyn_ty _ _ I).
Qed.

Lemma Inv_init : Inv init_st.
Proof.
  split.
  - apply CInv_empty.
  - intros o x H. cbn in H. by rewrite lookup_empty in H.
  - intros o Ho. cbn in Ho. set_solver.
  - intros o o' d d' a _ _ H. cbn in H. by rewrite lookup_empty in H.
  - intros o Ho. cbn in Ho. by apply elem_of_nil in Ho.
Qed.

(** The builder known under the id of a live builder is that builder. *)
Lemma Inv_known_is s o d a o' :
  Inv s → promise o s = Some (d, a) → known (ch s) !! a = Some o' → o' = o.
Proof.
  intros I [Hal Ho]%promise_Some Hk.
  destruct (ci_known_obj _ _ (i_c _ I) a o' Hk) as [d' Hd'].
  eapply (i_addr _ I o' o); [right; eauto|by left|exact Hd'|exact Ho].
Qed.

Lemma dep_rel_insert c wa ua x y :
  dep_rel (add_edge ua wa c) x y ↔ (x = wa ∧ y = ua) ∨ dep_rel c x y.
Proof.
  unfold dep_rel, add_edge, insert_in. cbn.
  destruct (decide (x = wa)) as [->|Hne].
  - rewrite lookup_insert. cbn. set_solver.
  - rewrite lookup_insert_ne by done. naive_solver.
Qed.

Lemma CInv_make_known ob c a o d :
  CInv ob c → ob !! o = Some (d, a) → CInv ob (make_known a o c).
Proof.
  intros I Ho. unfold make_known. destruct (known c !! a) as [o'|] eqn:Hk; [done|].
  assert (∀ y, ¬ dep_rel c a y) as Hnd.
  { intros y Hy. apply (ci_edge_known _ _ I) in Hy as [[? ?] _]. congruence. }
  split; cbn.
  - apply I.
  - apply I.
  - intros x Hx%(ci_dyn_known _ _ I). rewrite lookup_insert_is_Some'. by right.
  - intros x y [? ?]%(ci_edge_known _ _ I). rewrite !lookup_insert_is_Some'. auto.
  - intros x. rewrite lookup_insert_is_Some'. rewrite elem_of_union, elem_of_singleton.
    change (dep_rel (set_known _ _)) with (dep_rel c).
    intros [<-|Hx]; [naive_solver|]. rewrite <-(ci_leaf _ _ I x Hx).
    split; [|tauto]. intros [->|?]; [|done]. by apply (ci_leaf _ _ I).
  - intros x o'. rewrite lookup_insert_Some. intros [[<- <-]|[_ Hx]]; [eauto|].
    by apply (ci_known_obj _ _ I).
  - intros x e o' d' He. rewrite lookup_insert_Some. intros [[<- <-]|[_ Hx]].
    + exfalso. destruct (ci_dyn_known _ _ I a) as [? ?]; [|congruence].
      apply (ci_art_dyn _ _ I). eauto.
    + by apply (ci_art_ty _ _ I).
  - intros x e o' d' He. rewrite lookup_insert_Some. intros [[<- <-]|[_ Hx]].
    + exfalso. destruct (ci_dyn_known _ _ I a) as [? ?]; [eauto|congruence].
    + by apply (ci_dyn_ty _ _ I).
Qed.

Lemma CInv_dyn ob c a o d v :
  CInv ob c → known c !! a = Some o → ob !! o = Some (d, a) →
  CInv ob (set_dyn_states <[a := Dst (bd_sty d) v]> c).
Proof.
  intros I Hk Ho. split; cbn; try apply I.
  - intros x Hx%(ci_art_dyn _ _ I). rewrite lookup_insert_is_Some'. by right.
  - intros x. rewrite lookup_insert_is_Some'. intros [<-|Hx]; [eauto|by apply I].
  - intros x e o' d'. rewrite lookup_insert_Some. intros [[<- <-]|[_ Hx]] Hk' Ho'.
    + assert (d' = d) as -> by congruence. done.
    + by eapply (ci_dyn_ty _ _ I).
Qed.

Lemma CInv_art ob c a o d b :
  CInv ob c → known c !! a = Some o → ob !! o = Some (d, a) → is_Some (dyn_states c !! a) →
  CInv ob (set_artifacts <[a := Art (bd_aty d) b]> c).
Proof.
  intros I Hk Ho Hd. split; cbn; try apply I.
  - intros x. rewrite lookup_insert_is_Some'. intros [<-|Hx]; [done|by apply I].
  - intros x e o' d'. rewrite lookup_insert_Some. intros [[<- <-]|[_ Hx]] Hk' Ho'.
    + assert (d' = d) as -> by congruence. done.
    + by eapply (ci_art_ty _ _ I).
Qed.

Lemma CInv_edge ob c ua wa :
  CInv ob c → is_Some (known c !! ua) → is_Some (known c !! wa) → CInv ob (add_edge ua wa c).
Proof.
  intros I Hu Hw. split; try apply I.
  - intros x y. change (dep_rel (add_edge ua wa c) x y ↔ x ∈ default ∅ (dependencies (add_edge ua wa c) !! y)).
    rewrite dep_rel_insert, (sync_dep _ _ _ (ci_sync _ _ I)).
    unfold add_edge, insert_in; cbn. destruct (decide (y = ua)) as [->|Hne].
    + rewrite lookup_insert. cbn. set_solver.
    + rewrite lookup_insert_ne by done. naive_solver.
  - intros x y. rewrite dep_rel_insert. intros [[-> ->]|Hxy]; [done|]. by apply (ci_edge_known _ _ I).
  - intros x Hx. setoid_rewrite dep_rel_insert. cbn. rewrite elem_of_difference, elem_of_singleton.
    rewrite (ci_leaf _ _ I x Hx). split.
    + intros [Hn Hne] y [[-> _]|Hy]; [done|]. by eapply Hn.
    + intros Hn. split; [naive_solver|]. intros ->. apply (Hn ua). by left.
Qed.

Section Steps.
Context (E : env).

Lemma prim_Inv s s' : prim E s s' → Inv s → Inv s'.
Proof.
  intros Hp I.
  destruct Hp as [s o d a Hp|s o d a v Hp Hk Hd Hi|s o d a Hp Hk Hd Hna|s u du ua S w d wa Hst Hu Hw Hk
    |s u S w d wa h rv Hst Hw Hrv|s u du ua S v Hst Hu Hd|s|s|s d o s' Ha|s w s' Hd|s u d ua S b Hst Hu|s u S e Hst].
  - apply promise_Some in Hp as Hp'. destruct Hp' as [Hal Ho].
    assert (∀ x y, known (make_known a o (ch s)) !! x = Some y → known (ch s) !! x = Some y ∨ (y = o)) as Hk.
    { intros x y. unfold make_known. destruct (known (ch s) !! a); [by left|]. cbn.
      rewrite lookup_insert_Some. naive_solver. }
    assert (∀ x y, known (ch s) !! x = Some y → known (make_known a o (ch s)) !! x = Some y) as Hk2.
    { intros x y Hx. unfold make_known. destruct (known (ch s) !! a) eqn:Ha; [done|]. cbn.
      rewrite lookup_insert_ne; [done|]. intros ->; congruence. }
    split; try apply I.
    + eapply CInv_make_known; [apply I|exact Ho].
    + intros o1 o2 d1 d2 a' H1 H2. apply (i_addr _ I).
      * destruct H1 as [?|[x [?| ->]%Hk]]; [by left|right; eauto|by left].
      * destruct H2 as [?|[x [?| ->]%Hk]]; [by left|right; eauto|by left].
    + intros o' Ho'. destruct (i_stack _ I o' Ho') as (? & d' & a' & ? & ? & ?).
      split; [done|]. exists d', a'. cbn. destruct (make_known_fields a o (ch s)) as (_ & -> & _). auto.
  - apply promise_Some in Hp as Hp'. destruct Hp' as [Hal Ho]. destruct Hk as [o' Hk].
    assert (o' = o) as -> by (exact (Inv_known_is s o d a o' I Hp Hk)).
    split; try apply I.
    + eapply CInv_dyn; [apply I|exact Hk|exact Ho].
    + intros o' Ho'. destruct (i_stack _ I o' Ho') as (? & d' & a' & ? & ? & ?).
      split; [done|]. exists d', a'. cbn. rewrite lookup_insert_is_Some'. auto.
  - apply promise_Some in Hp as Hp'. destruct Hp' as [Hal Ho]. destruct Hk as [o' Hk].
    assert (o' = o) as -> by (exact (Inv_known_is s o d a o' I Hp Hk)).
    split; try apply I.
    intros o' [->|Ho']%elem_of_cons; [|by apply I]. split; [done|]. exists d, a. auto.
  - destruct (i_stack _ I u) as (_ & d' & a' & Hu' & Hku & _); [rewrite Hst; left|].
    assert (a' = ua ∧ d' = du) as [-> ->] by (split; congruence).
    split; try apply I. apply CInv_edge; [apply I|eauto|done].
  - split; apply I.
  - destruct (i_stack _ I u) as (_ & d' & a' & Hu' & Hku & _); [rewrite Hst; left|].
    assert (a' = ua ∧ d' = du) as [-> ->] by (split; congruence).
    split; try apply I.
    + eapply CInv_dyn; [apply I|exact Hku|exact Hu].
    + intros o' Ho'. destruct (i_stack _ I o' Ho') as (? & d' & a' & ? & ? & ?).
      split; [done|]. exists d', a'. cbn. rewrite lookup_insert_is_Some'. auto.
  - split; apply I.
  - split; apply I.
  - apply alloc_Some in Ha as (-> & -> & Hfree & Hunk).
    set (a := e_ask E (tick s)) in *.
    assert (∀ o x, objs s !! o = Some x → <[nobj s := (d, a)]> (objs s) !! o = Some x) as Hm.
    { intros o x Ho. apply (i_num _ I) in Ho as Hlt. rewrite lookup_insert_ne by lia. done. }
    split; cbn.
    + eapply CInv_mono; [apply I|exact Hm].
    + intros o x. cbn. rewrite lookup_insert_Some. intros [[<- _]|[_ Ho%(i_num _ I)]]; lia.
    + intros o [->%elem_of_singleton|Ho]%elem_of_union.
      * rewrite lookup_insert. eauto.
      * destruct (i_alive _ I o Ho) as [x Hx]. rewrite (Hm _ _ Hx). eauto.
    + assert (∀ o' d', objs s !! o' = Some (d', a) → o' ≠ nobj s →
         pinned (St (ch s) (<[nobj s:=(d, a)]> (objs s)) ({[nobj s]} ∪ alive s)
            (N.succ (nobj s)) (nbin s) (Datatypes.S (tick s)) (stack s) (reent s) (trace s)) o' → False) as Hno.
      { intros o' d' Ho' Hne [H1|[x Hx]]; cbn in *.
        - apply (Hfree o' d'); [set_solver|done].
        - destruct (ci_known_obj _ _ (i_c _ I) x o' Hx) as [d'' Hd'']. congruence. }
      assert (∀ o', pinned (St (ch s) (<[nobj s:=(d, a)]> (objs s)) ({[nobj s]} ∪ alive s)
            (N.succ (nobj s)) (nbin s) (Datatypes.S (tick s)) (stack s) (reent s) (trace s)) o' → o' ≠ nobj s → pinned s o') as Hpin.
      { intros o' [H1|H1] Hne; cbn in *; [left; set_solver|by right]. }
      intros o1 o2 d1 d2 a' H1 H2. rewrite !lookup_insert_Some.
      intros [[<- [= <- <-]]|[Hn1 Ho1]] [[<- [= <-]]|[Hn2 Ho2]].
      * done.
      * exfalso. by eapply (Hno o2).
      * exfalso. eapply (Hno o1); [|done|done]. by subst.
      * eapply (i_addr _ I o1 o2); eauto.
    + intros o Ho. destruct (i_stack _ I o Ho) as (? & d' & a' & ? & ? & ?).
      split; [set_solver|]. exists d', a'. auto.
  - apply drop_Some in Hd as (Hal & Hns & ->). split; cbn; try apply I.
    + intros o Ho. apply (i_alive _ I). set_solver.
    + intros o1 o2 d1 d2 a H1 H2. apply (i_addr _ I).
      * destruct H1 as [H1|H1]; [left; cbn in H1; set_solver|by right].
      * destruct H2 as [H2|H2]; [left; cbn in H2; set_solver|by right].
    + intros o Ho. destruct (i_stack _ I o Ho) as (? & ?). split; [set_solver|done].
  - destruct (i_stack _ I u) as (_ & d' & a' & Hu' & Hku & Hdu); [rewrite Hst; left|].
    assert (a' = ua ∧ d' = d) as [-> ->] by (split; congruence).
    split; cbn; try apply I.
    + eapply CInv_art; [apply I|exact Hku|exact Hu|exact Hdu].
    + intros o' Ho'. apply (i_stack _ I). rewrite Hst. by right.
  - split; cbn; try apply I.
    intros o' Ho'. apply (i_stack _ I). rewrite Hst. by right.
Qed.

Lemma prims_Inv s s' : rtc (prim E) s s' → Inv s → Inv s'.
Proof. induction 1; eauto using prim_Inv. Qed.

Lemma Inv_unwound s : Inv s → Inv (unwound s).
Proof. intros I. split; try apply I. intros o Ho. by apply elem_of_nil in Ho. Qed.

(** Changing only the cache, outside of builds. *)
Lemma Inv_set_ch s c :
  Inv s → stack s = [] → CInv (objs s) c → (∀ a o, known c !! a = Some o → pinned s o) → Inv (set_ch c s).
Proof.
  intros I Hst Hc Hk. split; cbn; try apply I.
  - done.
  - intros o1 o2 d1 d2 a H1 H2. apply (i_addr _ I).
    + destruct H1 as [H1|[x H1]]; [by left|by eapply Hk].
    + destruct H2 as [H2|[x H2]]; [by left|by eapply Hk].
  - rewrite Hst. intros o Ho. by apply elem_of_nil in Ho.
Qed.
Lemma Inv_tock s : Inv s → Inv (tock s).
Proof. intros I. split; apply I. Qed.
Lemma Inv_log e s : Inv s → Inv (log e s).
Proof. intros I. split; apply I. Qed.

Lemma pruned_known_pinned s C K L c' :
  pruned (ch s) C K L c' → ∀ a o, known c' !! a = Some o → pinned s o.
Proof.
  intros H a o. rewrite (pn_known _ _ _ _ _ H). case_bool_decide; [done|]. right; eauto.
Qed.

Lemma CInv_write_art ob a f c : CInv ob c → CInv ob (write_art a f c).
Proof.
  intros I. unfold write_art. split; cbn; try apply I.
  - intros x. rewrite lookup_alter_is_Some. apply I.
  - intros x e o d. rewrite lookup_alter_Some. intros [[-> (e' & He & ->)]|[_ He]] Hk Ho.
    + cbn. by eapply (ci_art_ty _ _ I).
    + by eapply (ci_art_ty _ _ I).
Qed.

Lemma CInv_clear_artifacts ob c : CInv ob c → CInv ob (clear_artifacts c).
Proof.
  intros I. unfold clear_artifacts. split; cbn; try apply I.
  - intros x y. cbn. rewrite !lookup_empty. done.
  - intros a [? H]. by rewrite lookup_empty in H.
  - intros x y. unfold dep_rel; cbn. rewrite lookup_empty; cbn. set_solver.
  - intros a Ha. unfold dep_rel; cbn. rewrite lookup_empty; cbn.
    rewrite elem_of_union, elem_of_dom. set_solver.
  - intros a e o d. by rewrite lookup_empty.
Qed.

Lemma clear_all_empty c : clear_all c = empty_cache.
Proof. done. Qed.

(** Cache-level result of [lookup_mut] under the invariant. *)
Lemma lookup_mut_ok dbg pr o s d a :
  Inv s → promise o s = Some (d, a) →
  ((∃ y, dep_rel (ch s) a y ∧ y ≠ a) →
    ∃ c', lookup_mut dbg pr a (bd_aty d) (ch s) = (CPanic PkCounterpart c', LNone)) ∧
  ((∀ y, dep_rel (ch s) a y → y = a) →
    ∃ c', invalidate_dependents dbg pr a (ch s) = COk c' ∧ CInv (objs s) c' ∧ known c' = known (ch s) ∧
      lookup_mut dbg pr a (bd_aty d) (ch s) =
        (COk c', match artifacts c' !! a with Some e => LSome (ar_bin e) | None => LNone end)).
Proof.
  intros I Hp. pose proof (ci_sync _ _ (i_c _ I)) as Hs. unfold lookup_mut. split.
  - intros (y & Hy & Hne). destruct (inv_dependents_panic dbg pr a y (ch s) Hs Hy Hne) as [c' ->]. eauto.
  - intros Hself. destruct (inv_dependents_ok dbg pr a (ch s) Hs Hself) as (c' & Hr & Hc').
    assert (known c' = known (ch s)) as Hk.
    { destruct Hc' as [[_ Hp']|(_ & _ & _ & H & _)]; [|done].
      apply map_eq; intros x. rewrite (pn_known _ _ _ _ _ Hp').
      rewrite bool_decide_eq_false_2; [done|set_solver]. }
    assert (CInv (objs s) c') as I' by (eapply CInv_inv_dependents; [apply I|exact Hr]).
    exists c'. rewrite Hr. split_and!; try done.
    unfold contains_artifact, is_known.
    destruct (artifacts c' !! a) as [e|] eqn:He.
    + assert (is_Some (known c' !! a)) as [o' Hko].
      { apply (ci_dyn_known _ _ I'), (ci_art_dyn _ _ I'). eauto. }
      rewrite (bool_decide_eq_true_2 (is_Some (known c' !! a))) by eauto.
      rewrite !andb_false_r.
      assert (o' = o) as -> by (eapply Inv_known_is; [exact I|exact Hp|congruence]).
      apply promise_Some in Hp as [_ Ho].
      rewrite (ci_art_ty _ _ I' a e o d He Hko Ho), N.eqb_refl. done.
    + rewrite (bool_decide_eq_false_2 (is_Some None)) by (intros [? ?]; done).
      rewrite !andb_false_r. done.
Qed.

(** Lookups never panic in states satisfying the invariant. *)
Lemma lookup_art_ok dbg o s d a :
  Inv s → promise o s = Some (d, a) →
  lookup_art dbg (ch s) a (bd_aty d) =
    match artifacts (ch s) !! a with Some e => LSome (ar_bin e) | None => LNone end.
Proof.
  intros I Hp. unfold lookup_art. destruct (artifacts (ch s) !! a) as [e|] eqn:He; [|done].
  assert (is_Some (known (ch s) !! a)) as [o' Hk].
  { apply (ci_dyn_known _ _ (i_c _ I)), (ci_art_dyn _ _ (i_c _ I)). eauto. }
  unfold is_known. rewrite (bool_decide_eq_true_2 (is_Some _)) by eauto. rewrite andb_false_r.
  assert (o' = o) as -> by (exact (Inv_known_is s o d a o' I Hp Hk)).
  apply promise_Some in Hp as [_ Ho].
  rewrite (ci_art_ty _ _ (i_c _ I) a e o d He Hk Ho), N.eqb_refl. done.
Qed.

Lemma ensure_ok o s d a :
  Inv s → promise o s = Some (d, a) →
  ∃ c, known c = known (make_known a o (ch s)) ∧ leafs c = leafs (make_known a o (ch s)) ∧
    artifacts c = artifacts (ch s) ∧ dependents c = dependents (ch s) ∧ dependencies c = dependencies (ch s) ∧
    Inv (set_ch c s) ∧
  match dyn_states (ch s) !! a, bd_init d with
  | Some v, _ => ensure_dyn_state a o (bd_sty d) (bd_init d) (ch s) = (c, inr (ds_val v)) ∧
      dyn_states c = dyn_states (ch s)
  | None, Some v => ensure_dyn_state a o (bd_sty d) (bd_init d) (ch s) = (c, inr v) ∧
      dyn_states c = <[a := Dst (bd_sty d) v]> (dyn_states (ch s))
  | None, None => ensure_dyn_state a o (bd_sty d) (bd_init d) (ch s) = (c, inl PkUser) ∧
      dyn_states c = dyn_states (ch s)
  end.
Proof.
  intros I Hp. apply promise_Some in Hp as Hp'. destruct Hp' as [Hal Ho].
  unfold ensure_dyn_state. destruct (make_known_fields a o (ch s)) as (Ha & Hd & Ht & Hs).
  rewrite Hd.
  assert (Inv (set_ch (make_known a o (ch s)) s)) as I1 by (eapply prim_Inv; [eapply pm_know|]; eauto).
  destruct (dyn_states (ch s) !! a) as [v|] eqn:Hv.
  - assert (is_Some (known (ch s) !! a)) as [o' Hk] by (apply (ci_dyn_known _ _ (i_c _ I)); eauto).
    assert (o' = o) as -> by (exact (Inv_known_is s o d a o' I Hp Hk)).
    rewrite (ci_dyn_ty _ _ (i_c _ I) a v o d Hv Hk Ho), N.eqb_refl.
    exists (make_known a o (ch s)). auto 10.
  - destruct (bd_init d) as [v|] eqn:Hi.
    + exists (set_dyn_states <[a := Dst (bd_sty d) v]> (make_known a o (ch s))). split_and!; try done.
      * eapply (prim_Inv (set_ch (make_known a o (ch s)) s)); [|exact I1].
        eapply (pm_dyn E (set_ch (make_known a o (ch s)) s) o d a v); try done.
        -- apply make_known_known.
        -- cbn. by rewrite Hd.
      * cbn. by rewrite Hd.
    + exists (make_known a o (ch s)). auto 10.
Qed.

Lemma Inv_get fuel h o s s' : Inv s → ends (get E fuel h o s) s' → Inv s'.
Proof. intros I H. eapply prims_Inv; [|exact I]. eapply get_prims; [apply (i_wf _ I)|exact H]. Qed.

Lemma build_prims fuel o s d a s' :
  Inv s → promise o s = Some (d, a) → artifacts (ch s) !! a = None →
  ends (build E fuel o s) s' → rtc (prim E) s s'.
Proof. intros I Hp Hn. eapply (build_bld_ok E fuel o s d a Hp Hn). apply (i_wf _ I). Qed.
Lemma build_done fuel o s d a r s' :
  Inv s → promise o s = Some (d, a) → artifacts (ch s) !! a = None →
  build E fuel o s = Done r s' → stack s' = stack s ∧
    match r with BOk e => artifacts (ch s') !! a = Some e | BErr e => ∃ t, trace s' = EFailed o e :: t end.
Proof.
  intros I Hp Hn Hb. destruct (build_bld_ok E fuel o s d a Hp Hn (i_wf _ I)) as [_ H].
  destruct (H _ _ Hb) as (? & _ & ?). done.
Qed.

(** ** No internal panic while building *)

Definition user_panic {A} (x : outcome A) : Prop := ∀ k s', x = Panic k s' → k = PkUser.

Definition bld_user (bld : obj → st → outcome bres) : Prop :=
  ∀ o s d a, Inv s → promise o s = Some (d, a) → artifacts (ch s) !! a = None →
    user_panic (bld o s) ∧
    (∀ e s', bld o s = Done (BOk e) s' → ar_ty e = bd_aty d).

Lemma get_with_user bld h o s :
  bld_user bld → Inv s → user_panic (get_with E bld h o s).
Proof.
  intros Hb I k s'. unfold get_with. destruct (promise o s) as [[d a]|] eqn:Hp; [|done].
  destruct (how_legal E h); [|done].
  rewrite (lookup_art_ok _ o s d a I Hp).
  destruct (artifacts (ch s) !! a) as [e|] eqn:He; [done|].
  destruct (Hb o s d a I Hp He) as [Hb1 Hb2].
  destruct (bld o s) as [[e|e] s1|k' s1| |] eqn:Hbld; try done.
  - rewrite (Hb2 _ _ eq_refl), N.eqb_refl. done.
  - intros [= <- <-]. by eapply Hb1.
Qed.

Lemma exec_user bld u du ua S :
  bld_ok E bld → bld_user bld → ∀ p s, Inv s → stack s = u :: S → objs s !! u = Some (du, ua) →
  user_panic (exec E bld u ua (bd_sty du) p s).
Proof.
  intros Hb Hbu p.
  induction p as [r| |h w k IH|k IH|v p IH|k IH|v k IH|d k IH|w p IH]; intros s I Hst Hu; cbn [exec].
  - done.
  - by intros k s' [= <- _].
  - pose proof (resolve_with_prims E bld u du ua h w s S Hb (i_wf _ I) Hst Hu) as [R1 R2].
    assert (user_panic (resolve_with E bld u ua h w s)) as Hru.
    { intros pk s'. unfold resolve_with. destruct (promise w s) as [[d wa]|] eqn:Hp; [|done].
      unfold track_dependency.
      destruct (i_stack _ I u) as (_ & d' & a' & Hu' & Hku & Hdu); [rewrite Hst; left|].
      assert (a' = ua ∧ d' = du) as [-> ->] by (split; congruence).
      assert (prim E s (set_ch (make_known wa w (ch s)) s)) as P1 by (eapply pm_know; eauto).
      pose proof (prim_Inv _ _ P1 I) as I1.
      assert (known (make_known wa w (ch s)) !! ua = Some u) as Hku1.
      { destruct (i_stack _ I1 u) as (_ & d' & a' & Hu1 & Hku1 & _); [cbn; rewrite Hst; left|].
        cbn in Hu1. assert (a' = ua) as -> by congruence. done. }
      unfold is_known. rewrite (bool_decide_eq_true_2 (is_Some _)) by (rewrite Hku1; eauto).
      rewrite andb_false_r.
      assert (prim E (set_ch (make_known wa w (ch s)) s)
        (log (EResolve u w) (set_ch (add_edge ua wa (make_known wa w (ch s))) (set_ch (make_known wa w (ch s)) s)))) as P2.
      { eapply pm_edge; try done. apply make_known_known. }
      pose proof (prim_Inv _ _ P2 I1) as I2.
      pose proof (get_with_user bld h w _ Hbu I2) as Hg.
      cbn [set_ch] in Hg.
      match goal with |- match ?x with _ => _ end = _ → _ => destruct x as [r s1|k' s1| |] eqn:Hx end; try done.
      intros [= <- <-]. eapply Hg. exact Hx. }
    destruct (resolve_with E bld u ua h w s) as [r s1|pk s1| |] eqn:Hr; try done.
    + assert (rtc (prim E) s s1) as H01 by (apply R1; left; eauto).
      apply IH.
      * by eapply prims_Inv.
      * rewrite (R2 _ _ eq_refl). done.
      * eapply prims_objs; [exact H01|apply (i_wf _ I)|done].
    + intros k' s' [= <- <-]. by eapply Hru.
  - destruct (i_stack _ I u) as (_ & d' & a' & Hu' & Hku & [v Hv]); [rewrite Hst; left|].
    assert (a' = ua ∧ d' = du) as [-> ->] by (split; congruence).
    unfold my_state, is_known. rewrite Hku, Hv.
    rewrite (bool_decide_eq_true_2 (is_Some (Some u))) by eauto. rewrite !andb_false_r.
    rewrite (ci_dyn_ty _ _ (i_c _ I) ua v u du Hv Hku Hu), N.eqb_refl. by apply IH.
  - destruct (i_stack _ I u) as (_ & d' & a' & Hu' & Hku & [v' Hv]); [rewrite Hst; left|].
    assert (a' = ua ∧ d' = du) as [-> ->] by (split; congruence).
    unfold my_state, is_known. rewrite Hku, Hv.
    rewrite (bool_decide_eq_true_2 (is_Some (Some u))) by eauto. rewrite !andb_false_r.
    rewrite (ci_dyn_ty _ _ (i_c _ I) ua v' u du Hv Hku Hu), N.eqb_refl. apply IH; [|done..].
    eapply prim_Inv; [|exact I]. eapply pm_set; eauto.
  - apply IH; [|done..]. by apply Inv_tock.
  - apply IH; [|done..]. eapply prim_Inv; [apply pm_newbin|done].
  - destruct (alloc E d s) as [[o s1]|] eqn:Ha; [|done].
    apply IH.
    + eapply prim_Inv; [by eapply pm_alloc|done].
    + apply alloc_Some in Ha as (_ & -> & _). done.
    + exact (prim_objs E s s1 u (du, ua) (pm_alloc E s d o s1 Ha) (i_wf _ I) Hu).
  - destruct (drop_obj w s) as [s1|] eqn:Ha; [|done].
    apply IH.
    + eapply prim_Inv; [by eapply pm_drop|done].
    + apply drop_Some in Ha as (_ & _ & ->). done.
    + exact (prim_objs E s s1 u (du, ua) (pm_drop E s w s1 Ha) (i_wf _ I) Hu).
Qed.

Lemma build_user fuel : bld_user (build E fuel).
Proof.
  induction fuel as [|fuel IH]; intros o s d a I Hp Hn; [done|]. cbn [build].
  rewrite Hp. destruct d as [aty sty init body].
  unfold contains_artifact. rewrite Hn.
  rewrite (bool_decide_eq_false_2 (is_Some None)) by (intros [? ?]; done). rewrite andb_false_r.
  destruct (ensure_dyn_state a o sty init (make_known a o (ch s))) as [c2 r] eqn:He.
  destruct (ensure_prims E o s (BDef aty sty init body) a c2 r Hp He) as (P1 & Pa & Pk & Pd).
  apply promise_Some in Hp as Hp'. destruct Hp' as [Hal Ho].
  destruct r as [k|v].
  { split; [|done]. intros k' s' [= <- <-].
    assert (Inv (set_ch (make_known a o (ch s)) s)) as I1 by (eapply prim_Inv; [eapply pm_know|]; eauto).
    destruct (ensure_ok o (set_ch (make_known a o (ch s)) s) (BDef aty sty init body) a I1) as (c & _ & _ & _ & _ & _ & _ & Hc).
    { done. }
    cbn [ch set_ch bd_sty bd_init] in Hc. rewrite He in Hc.
    destruct (dyn_states (make_known a o (ch s)) !! a); [naive_solver|]. destruct init; naive_solver. }
  set (s1 := log _ _).
  assert (rtc (prim E) s s1) as P01.
  { eapply rtc_r; [exact P1|]. eapply (pm_push E (set_ch c2 s)); eauto. cbn. congruence. }
  assert (Inv s1) as I1 by (by eapply prims_Inv).
  pose proof (exec_user (build E fuel) o (BDef aty sty init body) a (stack s)
    (build_bld_ok E fuel) IH body s1 I1 eq_refl Ho) as Hx.
  cbn [bd_sty] in Hx.
  destruct (exec E (build E fuel) o a sty body s1) as [[b|e] s2|k s2| |] eqn:Hr; try done.
  - cbn [artifacts set_artifacts]. rewrite lookup_insert. split; [done|]. by intros e s' [= <- <-].
  - split; [|done]. intros k' s' [= <- <-]. by eapply Hx.
Qed.

Lemma get_user fuel h o s : Inv s → user_panic (get E fuel h o s).
Proof. intros I. apply get_with_user; [apply build_user|done]. Qed.

(** ** Steps *)

Lemma step_Inv n x s r s' :
  Inv s → stack s = [] → step E n x s = Done r s' → Inv s' ∧ stack s' = [].
Proof.
  intros I Hst. destruct x as [d|o|h o|o f|h o|o f|o|o f|o|o|o| | | |o| ]; cbn [step].
  - destruct (alloc E d s) as [[o s1]|] eqn:Ha; [|done]. intros [= <- <-]. split.
    + eapply prim_Inv; [by eapply pm_alloc|done].
    + apply alloc_Some in Ha as (_ & -> & _). done.
  - destruct (drop_obj o s) as [s1|] eqn:Ha; [|done]. intros [= <- <-]. split.
    + eapply prim_Inv; [by eapply pm_drop|done].
    + apply drop_Some in Ha as (_ & _ & ->). done.
  - destruct (get E n h o s) as [r' s1|k s1| |] eqn:Hg; try done. intros [= <- <-]. split.
    + eapply Inv_get; [exact I|left; eauto].
    + rewrite (get_stack E n h o s r' s1 (i_wf _ I) Hg). done.
  - unfold op_get_mut. destruct (e_kind E); [done|]. destruct (promise o s) as [[d a]|] eqn:Hp; [|done].
    destruct (lookup_mut_ok (e_dbg E) (prio E s) o s d a I Hp) as [L1 L2].
    destruct (other_dependent_dec (ch s) a) as [Hod|Hself].
    { destruct (L1 Hod) as [c ->]. done. }
    destruct (L2 Hself) as (c & Hr & Ic & Hk & ->).
    assert (Inv (tock (set_ch c s))) as I1.
    { apply Inv_tock, Inv_set_ch; [done..|]. intros x y. rewrite Hk. right; eauto. }
    destruct (artifacts c !! a) as [e|] eqn:He.
    + destruct (lookup_mut_ok (e_dbg E) (prio E (tock (set_ch c s))) o (tock (set_ch c s)) d a I1) as [L1' L2'].
      { done. }
      cbn [ch tock set_ch] in *.
      destruct (other_dependent_dec c a) as [Hod|Hself'].
      { destruct (L1' Hod) as [c' ->]. done. }
      destruct (L2' Hself') as (c' & Hr' & Ic' & Hk' & ->).
      destruct (artifacts c' !! a) as [e'|]; [|done]. intros [= <- <-]. split; [|done].
      apply Inv_tock. apply (Inv_set_ch (tock (set_ch c s))); [done|done|by apply CInv_write_art|].
      intros x y. cbn. rewrite Hk'. right; eauto.
    + destruct (build E n o (tock (set_ch c s))) as [[e|e] s1|k s1| |] eqn:Hb; try done.
      * destruct (build_done n o _ d a _ _ I1 Hp He Hb) as [Hst1 _].
        assert (Inv s1) as I2.
        { eapply prims_Inv; [|exact I1]. eapply build_prims; [exact I1|exact Hp|exact He|left; eauto]. }
        destruct (_ =? _)%N; [|done]. intros [= <- <-]. cbn in *. rewrite Hst in Hst1. split; [|done].
        apply Inv_set_ch; [done|done|by apply CInv_write_art, I2|]. intros x y ?. right; eauto.
      * destruct (build_done n o _ d a _ _ I1 Hp He Hb) as [Hst1 _].
        intros [= <- <-]. cbn in Hst1. rewrite Hst in Hst1. split; [|done].
        eapply prims_Inv; [|exact I1]. eapply build_prims; [exact I1|exact Hp|exact He|left; eauto].
  - destruct (promise o s) as [[d a]|] eqn:Hp; [|done]. destruct (how_legal E h); [|done].
    destruct (lookup_art _ _ _ _); [done|naive_solver..].
  - unfold op_lookup_mut. destruct (e_kind E); [done|]. destruct (promise o s) as [[d a]|] eqn:Hp; [|done].
    destruct (lookup_mut_ok (e_dbg E) (prio E s) o s d a I Hp) as [L1 L2].
    destruct (other_dependent_dec (ch s) a) as [Hod|Hself].
    { destruct (L1 Hod) as [c ->]. done. }
    destruct (L2 Hself) as (c & Hr & Ic & Hk & ->).
    destruct (artifacts c !! a) as [e|] eqn:He; intros [= <- <-]; (split; [|done]); apply Inv_tock.
    + apply Inv_set_ch; [done|done|by apply CInv_write_art|]. intros x y. cbn. rewrite Hk. right; eauto.
    + apply Inv_set_ch; [done..|]. intros x y. rewrite Hk. right; eauto.
  - destruct (promise o s) as [[d a]|] eqn:Hp; [|done].
    destruct (ensure_ok o s d a I Hp) as (c & _ & _ & _ & _ & _ & I1 & Hc).
    destruct (ensure_dyn_state a o (bd_sty d) (bd_init d) (ch s)) as [c1 [k|v]]; [done|].
    assert (c1 = c) as -> by (destruct (dyn_states (ch s) !! a), (bd_init d); naive_solver).
    intros [= <- <-]. done.
  - destruct (promise o s) as [[d a]|] eqn:Hp; [|done].
    destruct (invalidate_ok (e_dbg E) (prio E s 0) a (ch s) (ci_sync _ _ (i_c _ I))) as (C & c & -> & Hpr & HC).
    assert (Inv (log (EInvalidate o) (tock (set_ch c s)))) as I1.
    { apply Inv_log, Inv_tock, Inv_set_ch; [done|done| |by eapply pruned_known_pinned].
      eapply CInv_pruned; [apply I|by eapply closure_closed| | |exact Hpr]; set_solver. }
    destruct (ensure_ok o (log (EInvalidate o) (tock (set_ch c s))) d a I1) as (c2 & Hk & _ & _ & _ & _ & I2 & Hc); [done|].
    cbn [ch log tock set_ch] in *.
    destruct (ensure_dyn_state a o (bd_sty d) (bd_init d) c) as [c1 [k|v]]; [done|].
    assert (c1 = c2) as -> by (destruct (dyn_states c !! a), (bd_init d); naive_solver).
    intros [= <- <-]. split; [|done].
    apply promise_Some in Hp as Hp'. destruct Hp' as [Hal Ho].
    destruct (make_known_known a o c) as [o' Hko].
    assert (o' = o) as ->.
    { eapply (Inv_known_is _ o d a o' I2); [done|]. cbn. by rewrite Hk. }
    apply (Inv_set_ch (log (EInvalidate o) (tock (set_ch c2 s)))); [exact I2|done| |].
    + eapply CInv_dyn; [apply I2| |exact Ho]. cbn. by rewrite Hk.
    + intros x y Hxy. right. eauto.
  - destruct (promise o s) as [[d a]|] eqn:Hp; [|done].
    destruct (get_dyn_state _ _ _ _); naive_solver.
  - destruct (promise o s) as [[d a]|] eqn:Hp; [|done].
    destruct (invalidate_ok (e_dbg E) (prio E s 0) a (ch s) (ci_sync _ _ (i_c _ I))) as (C & c & -> & Hpr & HC).
    cbn. intros [= <- <-]. split; [|done].
    apply Inv_log, Inv_tock, Inv_set_ch; [done|done| |by eapply pruned_known_pinned].
    eapply CInv_pruned; [apply I|by eapply closure_closed| | |exact Hpr]; set_solver.
  - destruct (promise o s) as [[d a]|] eqn:Hp; [|done].
    destruct (purge_ok (e_dbg E) (prio E s 0) a (ch s) (ci_sync _ _ (i_c _ I))) as (C & c & -> & Hpr & HC).
    cbn. intros [= <- <-]. split; [|done].
    apply Inv_log, Inv_tock, Inv_set_ch; [done|done| |by eapply pruned_known_pinned].
    eapply CInv_pruned; [apply I|by eapply closure_closed| | |exact Hpr].
    + intros x ->%elem_of_singleton. apply HC, rtc_refl.
    + set_solver.
  - intros [= <- <-]. split; [|done]. apply Inv_set_ch; [done|done|apply CInv_clear_artifacts, I|].
    intros x y ?. right; eauto.
  - intros [= <- <-]. split; [|done]. rewrite clear_all_empty.
    apply Inv_log, Inv_set_ch; [done|done|apply CInv_empty|]. intros x y. cbn. by rewrite lookup_empty.
  - unfold lift. destruct (gc_ok (e_dbg E) (prio E s) (alive s) (objs s) (ch s) (i_c _ I)) as [G1 G2].
    destruct (decide (leafs (ch s) ⊆ dom (known (ch s)))) as [Hl|Hl].
    + destruct (G1 Hl) as (D & c & -> & Hpr & Hcl & HD). intros [= <- <-]. split; [|done].
      apply Inv_tock, Inv_set_ch; [done|done| |by eapply pruned_known_pinned].
      eapply CInv_pruned; [apply I|exact Hcl| | |exact Hpr]; done.
    + rewrite (G2 Hl). done.
  - destruct (promise o s) as [[d a]|] eqn:Hp; [|done]. naive_solver.
  - naive_solver.
Qed.

(** Which panics a single operation can give, and the state after them. *)
Lemma step_panic n x s k s' :
  Inv s → stack s = [] → step E n x s = Panic k s' →
  (k = PkUser ∧ Inv (unwound s')) ∨
  (x = OGc ∧ k = PkGcIndex ∧ s' = tock s ∧ ¬ leafs (ch s) ⊆ dom (known (ch s))) ∨
  ((∃ o f d a, (x = OGetMut o f ∨ x = OLookupMut o f) ∧ promise o s = Some (d, a) ∧
     (∃ y, dep_rel (ch s) a y ∧ y ≠ a)) ∧ k = PkCounterpart).
Proof.
  intros I Hst. destruct x as [d|o|h o|o f|h o|o f|o|o f|o|o|o| | | |o| ]; cbn [step].
  - destruct (alloc E d s) as [[o s1]|] eqn:Ha; done.
  - destruct (drop_obj o s) as [s1|] eqn:Ha; done.
  - destruct (get E n h o s) as [r' s1|k1 s1| |] eqn:Hg; try done. intros [= <- <-]. left. split.
    + by eapply get_user.
    + apply Inv_unwound. eapply Inv_get; [exact I|right; eauto].
  - unfold op_get_mut. destruct (e_kind E); [done|]. destruct (promise o s) as [[d a]|] eqn:Hp; [|done].
    destruct (lookup_mut_ok (e_dbg E) (prio E s) o s d a I Hp) as [L1 L2].
    destruct (other_dependent_dec (ch s) a) as [Hod|Hself].
    { destruct (L1 Hod) as [c ->]. intros [= <- <-]. right; right. split; [|done]. exists o, f, d, a. auto. }
    destruct (L2 Hself) as (c & Hr & Ic & Hk & ->).
    assert (Inv (tock (set_ch c s))) as I1.
    { apply Inv_tock, Inv_set_ch; [done..|]. intros x y. rewrite Hk. right; eauto. }
    destruct (artifacts c !! a) as [e|] eqn:He.
    + (* found: the second lookup finds it again *)
      destruct (lookup_mut_ok (e_dbg E) (prio E (tock (set_ch c s))) o (tock (set_ch c s)) d a I1) as [L1' L2'].
      { done. }
      cbn [ch tock set_ch] in *.
      assert (∀ y, ¬ dep_rel c a y) as Hnd.
      { destruct (inv_dependents_ok (e_dbg E) (prio E s) a (ch s) (ci_sync _ _ (i_c _ I)) Hself) as (c1 & Hr1 & Hc1).
        assert (c1 = c) as -> by congruence.
        destruct Hc1 as [[_ Hpr]|(Hns & _ & _ & _ & _ & Hdt & _)].
        - exfalso. rewrite (pn_art _ _ _ _ _ Hpr), bool_decide_eq_true_2 in He by set_solver. done.
        - intros y. unfold dep_rel. rewrite Hdt, lookup_delete. cbn. set_solver. }
      destruct L2' as (c' & Hr' & Ic' & Hk' & ->).
      { intros y Hy. by apply Hnd in Hy. }
      destruct (inv_dependents_ok (e_dbg E) (prio E (tock (set_ch c s))) a c (ci_sync _ _ Ic)) as (c1 & Hr1 & Hc1).
      { intros y Hy. by apply Hnd in Hy. }
      assert (c1 = c') as -> by congruence.
      destruct Hc1 as [[Hd _]|(_ & Ha & _)]; [by apply Hnd in Hd|].
      rewrite Ha, He. done.
    + destruct (build_user n o _ d a I1 Hp He) as [Hu Hty].
      destruct (build E n o (tock (set_ch c s))) as [[e|e] s1|k1 s1| |] eqn:Hb; try done.
      * rewrite (Hty _ _ eq_refl), N.eqb_refl. done.
      * intros [= <- <-]. left. split; [by eapply Hu|]. apply Inv_unwound.
        eapply prims_Inv; [|exact I1]. eapply build_prims; [exact I1|exact Hp|exact He|right; eauto].
  - destruct (promise o s) as [[d a]|] eqn:Hp; [|done]. destruct (how_legal E h); [|done].
    rewrite (lookup_art_ok _ o s d a I Hp). by destruct (artifacts (ch s) !! a).
  - unfold op_lookup_mut. destruct (e_kind E); [done|]. destruct (promise o s) as [[d a]|] eqn:Hp; [|done].
    destruct (lookup_mut_ok (e_dbg E) (prio E s) o s d a I Hp) as [L1 L2].
    destruct (other_dependent_dec (ch s) a) as [Hod|Hself].
    { destruct (L1 Hod) as [c ->]. intros [= <- <-]. right; right. split; [|done]. exists o, f, d, a. auto. }
    destruct (L2 Hself) as (c & Hr & Ic & Hk & ->).
    by destruct (artifacts c !! a) as [e|].
  - destruct (promise o s) as [[d a]|] eqn:Hp; [|done].
    destruct (ensure_ok o s d a I Hp) as (c & _ & _ & _ & _ & _ & I1 & Hc).
    destruct (dyn_states (ch s) !! a) as [v|]; [|destruct (bd_init d) as [v|]]; destruct Hc as [-> _]; try done.
    intros [= <- <-]. left. split; [done|]. by apply Inv_unwound.
  - destruct (promise o s) as [[d a]|] eqn:Hp; [|done].
    destruct (invalidate_ok (e_dbg E) (prio E s 0) a (ch s) (ci_sync _ _ (i_c _ I))) as (C & c & -> & Hpr & HC).
    assert (Inv (log (EInvalidate o) (tock (set_ch c s)))) as I1.
    { apply Inv_log, Inv_tock, Inv_set_ch; [done|done| |by eapply pruned_known_pinned].
      eapply CInv_pruned; [apply I|by eapply closure_closed| | |exact Hpr]; set_solver. }
    destruct (ensure_ok o (log (EInvalidate o) (tock (set_ch c s))) d a I1) as (c2 & Hk & _ & _ & _ & _ & I2 & Hc); [done|].
    cbn [ch log tock set_ch] in *.
    destruct (dyn_states c !! a) as [v|]; [|destruct (bd_init d) as [v|]]; destruct Hc as [-> _]; try done.
    intros [= <- <-]. left. split; [done|]. by apply Inv_unwound.
  - destruct (promise o s) as [[d a]|] eqn:Hp; [|done].
    unfold get_dyn_state. destruct (dyn_states (ch s) !! a) as [v|] eqn:Hv; [|done].
    assert (is_Some (known (ch s) !! a)) as [o' Hk] by (apply (ci_dyn_known _ _ (i_c _ I)); eauto).
    unfold is_known. rewrite (bool_decide_eq_true_2 (is_Some _)) by eauto. rewrite andb_false_r.
    assert (o' = o) as -> by (exact (Inv_known_is s o d a o' I Hp Hk)).
    apply promise_Some in Hp as [_ Ho].
    rewrite (ci_dyn_ty _ _ (i_c _ I) a v o d Hv Hk Ho), N.eqb_refl. done.
  - destruct (promise o s) as [[d a]|] eqn:Hp; [|done].
    destruct (invalidate_ok (e_dbg E) (prio E s 0) a (ch s) (ci_sync _ _ (i_c _ I))) as (C & c & -> & Hpr & HC).
    done.
  - destruct (promise o s) as [[d a]|] eqn:Hp; [|done].
    destruct (purge_ok (e_dbg E) (prio E s 0) a (ch s) (ci_sync _ _ (i_c _ I))) as (C & c & -> & Hpr & HC).
    done.
  - done.
  - done.
  - unfold lift. destruct (gc_ok (e_dbg E) (prio E s) (alive s) (objs s) (ch s) (i_c _ I)) as [G1 G2].
    destruct (decide (leafs (ch s) ⊆ dom (known (ch s)))) as [Hl|Hl].
    + by destruct (G1 Hl) as (D & c & -> & Hpr & Hcl & HD).
    + rewrite (G2 Hl). intros [= <- <-]. right; left. split_and!; try done.
  - destruct (promise o s) as [[d a]|] eqn:Hp; done.
  - done.
Qed.

Lemma runs_Inv P s0 l s : runs E P s0 l s → Inv s0 → stack s0 = [] → Inv s ∧ stack s = [].
Proof.
  intros H I0 Hst0.
  induction H as [|l s n x r s' H [I Hst] HP Hs|l s n x k s' H [I Hst] HP Hs Hk].
  - done.
  - by eapply step_Inv.
  - split; [|done]. destruct (step_panic n x s k s' I Hst Hs) as [[_ ?]|[(-> & -> & -> & _)|[_ ->]]].
    + done.
    + by apply Inv_unwound, Inv_tock.
    + done.
Qed.

Lemma reach_Inv P s : reach_by E P s → Inv s ∧ stack s = [].
Proof. intros [l H]. eapply runs_Inv; [exact H|apply Inv_init|done]. Qed.

End Steps.
