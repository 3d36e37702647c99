(** The invariant of reachable states. *)
From Verif Require Export InvalidateFacts Prims.
From stdpp Require Import relations.

(** Cache-level invariant, relative to the builder objects. *)
Record CInv (ob : gmap obj (bdef * addr)) (c : cache) : Prop := {
  ci_sync : sync c;
  ci_art_dyn : ∀ a, is_Some (artifacts c !! a) → is_Some (dyn_states c !! a);
  ci_dyn_known : ∀ a, is_Some (dyn_states c !! a) → is_Some (known c !! a);
  ci_edge_known : ∀ x y, dep_rel c x y → is_Some (known c !! x) ∧ is_Some (known c !! y);
  ci_leaf : ∀ a, is_Some (known c !! a) → a ∈ leafs c ↔ ∀ y, ¬ dep_rel c a y;
  ci_known_obj : ∀ a o, known c !! a = Some o → ∃ d, ob !! o = Some (d, a);
  ci_art_ty : ∀ a e o d, artifacts c !! a = Some e → known c !! a = Some o →
    ob !! o = Some (d, a) → ar_ty e = bd_aty d;
  ci_dyn_ty : ∀ a e o d, dyn_states c !! a = Some e → known c !! a = Some o →
    ob !! o = Some (d, a) → ds_ty e = bd_sty d;
}.

(** A builder whose memory cannot be reused: alive, or pinned by a weak
    reference in the cache. *)
Definition pinned (s : st) (o : obj) : Prop := o ∈ alive s ∨ ∃ a, known (ch s) !! a = Some o.

Record Inv (s : st) : Prop := {
  i_c : CInv (objs s) (ch s);
  i_num : objs_num s;
  i_alive : ∀ o, o ∈ alive s → is_Some (objs s !! o);
  i_addr : ∀ o o' d d' a, pinned s o → pinned s o' →
    objs s !! o = Some (d, a) → objs s !! o' = Some (d', a) → o = o';
  i_stack : ∀ o, o ∈ stack s → o ∈ alive s ∧ ∃ d a, objs s !! o = Some (d, a) ∧
    known (ch s) !! a = Some o ∧ is_Some (dyn_states (ch s) !! a);
}.

Lemma i_wf s : Inv s → objs_wf s.
Proof. intros I. split; [apply (i_num _ I)|]. intros o Ho. by apply (i_stack _ I). Qed.

(** ** Removing builders from the graph *)

Definition closed (c : cache) (C : gset addr) : Prop := ∀ x y, x ∈ C → dep_rel c x y → y ∈ C.

(** [c'] is [c] where the artifacts and edges of [C] are gone, the dynamic
    states and weak references of [K] are gone, and [L] has been taken out of
    the leaf set. *)
Record pruned (c : cache) (C K L : gset addr) (c' : cache) : Prop := {
  pn_art : ∀ x, artifacts c' !! x = if bool_decide (x ∈ C) then None else artifacts c !! x;
  pn_dyn : ∀ x, dyn_states c' !! x = if bool_decide (x ∈ K) then None else dyn_states c !! x;
  pn_known : ∀ x, known c' !! x = if bool_decide (x ∈ K) then None else known c !! x;
  pn_dependents : ∀ x, dependents c' !! x =
    if bool_decide (x ∈ C) then None else (.∖ C) <$> dependents c !! x;
  pn_dependencies : ∀ x, dependencies c' !! x =
    if bool_decide (x ∈ C) then None else dependencies c !! x;
  pn_leafs : ∀ x, x ∈ leafs c' ↔ x ∉ L ∧
    (x ∈ leafs c ∨ x ∈ C ∨ ((∃ y, y ∈ C ∧ dep_rel c x y) ∧ ∀ y, dep_rel c x y → y ∈ C));
}.

Lemma pruned_unique c C K L c1 c2 : pruned c C K L c1 → pruned c C K L c2 → c1 = c2.
Proof.
  intros H1 H2. apply cache_eq.
  - apply map_eq; intros x. by rewrite (pn_art _ _ _ _ _ H1 x), (pn_art _ _ _ _ _ H2 x).
  - apply map_eq; intros x. by rewrite (pn_dyn _ _ _ _ _ H1 x), (pn_dyn _ _ _ _ _ H2 x).
  - apply map_eq; intros x. by rewrite (pn_dependents _ _ _ _ _ H1 x), (pn_dependents _ _ _ _ _ H2 x).
  - apply map_eq; intros x. by rewrite (pn_dependencies _ _ _ _ _ H1 x), (pn_dependencies _ _ _ _ _ H2 x).
  - apply set_eq; intros x. by rewrite (pn_leafs _ _ _ _ _ H1 x), (pn_leafs _ _ _ _ _ H2 x).
  - apply map_eq; intros x. by rewrite (pn_known _ _ _ _ _ H1 x), (pn_known _ _ _ _ _ H2 x).
Qed.

Lemma removed_pruned c C c' : removed c C c' → pruned c C ∅ ∅ c'.
Proof.
  intros H. split.
  - apply (rm_art _ _ _ H).
  - intros x. rewrite bool_decide_eq_false_2 by set_solver. by rewrite (rm_dyn _ _ _ H).
  - intros x. rewrite bool_decide_eq_false_2 by set_solver. by rewrite (rm_known _ _ _ H).
  - apply (rm_dependents _ _ _ H).
  - apply (rm_dependencies _ _ _ H).
  - intros x. rewrite (rm_leafs _ _ _ H). assert (x ∉ (∅ : gset addr)) by set_solver. tauto.
Qed.

Lemma pruned_dep_rel c C K L c' x y :
  pruned c C K L c' → dep_rel c' x y ↔ x ∉ C ∧ y ∉ C ∧ dep_rel c x y.
Proof.
  intros H. unfold dep_rel. rewrite (pn_dependents _ _ _ _ _ H).
  case_bool_decide as HC; cbn; [set_solver|].
  destruct (dependents c !! x) as [X|]; cbn; set_solver.
Qed.

Global Instance dep_rel_dec c x y : Decision (dep_rel c x y).
Proof. unfold dep_rel. apply _. Qed.

Lemma has_dependent_dec c x : (∃ y, dep_rel c x y) ∨ (∀ y, ¬ dep_rel c x y).
Proof.
  unfold dep_rel. destruct (set_choose_or_empty (default ∅ (dependents c !! x))) as [[y Hy]|Hy]; [eauto|].
  right. set_solver.
Qed.

Lemma sync_dep c x y : sync c → dep_rel c x y ↔ x ∈ default ∅ (dependencies c !! y).
Proof. intros H. apply H. Qed.

Lemma CInv_pruned ob c C K L c' :
  CInv ob c → closed c C → K ⊆ C → L ⊆ K → pruned c C K L c' → CInv ob c'.
Proof.
  intros I Hcl HK HL H.
  assert (∀ x, is_Some (known c' !! x) ↔ x ∉ K ∧ is_Some (known c !! x)) as Hkn.
  { intros x. rewrite (pn_known _ _ _ _ _ H). case_bool_decide; [|tauto].
    split; [intros [? ?]; done|tauto]. }
  split.
  - intros x y. change (dep_rel c' x y ↔ x ∈ default ∅ (dependencies c' !! y)).
    rewrite (pruned_dep_rel _ _ _ _ _ _ _ H), (sync_dep _ _ _ (ci_sync _ _ I)).
    rewrite (pn_dependencies _ _ _ _ _ H). case_bool_decide as Hy; cbn.
    + set_solver.
    + split; [tauto|]. intros Hx. split_and!; [|done|done].
      intros HxC. apply Hy. apply (Hcl x); [done|]. by apply sync_dep; [apply (ci_sync _ _ I)|].
  - intros a. rewrite (pn_art _ _ _ _ _ H), (pn_dyn _ _ _ _ _ H).
    case_bool_decide; [intros [? ?]; done|]. rewrite bool_decide_eq_false_2 by set_solver.
    apply (ci_art_dyn _ _ I).
  - intros a. rewrite (pn_dyn _ _ _ _ _ H), (pn_known _ _ _ _ _ H).
    case_bool_decide; [intros [? ?]; done|]. apply (ci_dyn_known _ _ I).
  - intros x y (Hx & Hy & Hd)%(pruned_dep_rel _ _ _ _ _ _ _ H).
    rewrite !Hkn. apply (ci_edge_known _ _ I) in Hd. set_solver.
  - intros a [HaK Ha]%Hkn. rewrite (pn_leafs _ _ _ _ _ H).
    setoid_rewrite (pruned_dep_rel _ _ _ _ _ _ _ H).
    rewrite (ci_leaf _ _ I a Ha).
    assert (a ∉ L) by set_solver.
    split.
    + intros [_ [Hn|[Hn|[_ Hall]]]] y (Hy1 & Hy2 & Hy3); [by eapply Hn|done|]. by apply Hy2, Hall.
    + intros Hn. split; [done|].
      destruct (decide (a ∈ C)) as [HaC|HaC]; [by right; left|].
      destruct (has_dependent_dec c a) as [[y Hy]|Hno]; [|by left].
      right; right.
      assert (∀ z, dep_rel c a z → z ∈ C) as Hz.
      { intros z Hz. destruct (decide (z ∈ C)); [done|]. exfalso. apply (Hn z). done. }
      split; [exists y; auto|done].
  - intros a o. rewrite (pn_known _ _ _ _ _ H). case_bool_decide; [done|]. apply (ci_known_obj _ _ I).
  - intros a e o d. rewrite (pn_art _ _ _ _ _ H), (pn_known _ _ _ _ _ H).
    case_bool_decide; [done|]. case_bool_decide; [done|]. apply (ci_art_ty _ _ I).
  - intros a e o d. rewrite (pn_dyn _ _ _ _ _ H), (pn_known _ _ _ _ _ H).
    case_bool_decide; [done|]. apply (ci_dyn_ty _ _ I).
Qed.

(** Transitive dependents are closed. *)
Lemma closure_closed c a (C : gset addr) : (∀ x, x ∈ C ↔ rtc (dep_rel c) a x) → closed c C.
Proof. intros HC x y Hx Hxy. apply HC. eapply rtc_r; [by apply HC|done]. Qed.

(** ** invalidate, purge, garbage collection *)

Lemma invalidate_ok dbg pr a c : sync c →
  ∃ C c', invalidate_by_id dbg pr a c = COk c' ∧ pruned c C ∅ ∅ c' ∧
    (∀ x, x ∈ C ↔ rtc (dep_rel c) a x).
Proof.
  intros Hs. destruct (invalidate_by_id_spec dbg pr a c Hs) as (C & c' & H1 & H2 & H3).
  exists C, c'. split_and!; [done|by apply removed_pruned|done].
Qed.

Lemma purge_ok dbg pr a c : sync c →
  ∃ C c', purge dbg pr a c = COk c' ∧ pruned c C {[a]} ∅ c' ∧
    (∀ x, x ∈ C ↔ rtc (dep_rel c) a x).
Proof.
  intros Hs. unfold purge.
  set (c3 := set_dyn_states (delete a) _).
  destruct (invalidate_by_id_spec dbg pr a c3 Hs) as (C & c' & H1 & H2 & H3).
  exists C, c'. split; [done|]. split; [|exact H3].
  assert (a ∈ C) as HaC by (apply H3; apply rtc_refl).
  split.
  - intros x. rewrite (rm_art _ _ _ H2). case_bool_decide; [done|]. cbn.
    rewrite lookup_delete_ne; [done|]. intros ->; done.
  - intros x. rewrite (rm_dyn _ _ _ H2). cbn. case_bool_decide as Hx.
    + apply elem_of_singleton in Hx as ->. apply lookup_delete.
    + rewrite lookup_delete_ne by set_solver. done.
  - intros x. rewrite (rm_known _ _ _ H2). cbn. case_bool_decide as Hx.
    + apply elem_of_singleton in Hx as ->. apply lookup_delete.
    + rewrite lookup_delete_ne by set_solver. done.
  - apply (rm_dependents _ _ _ H2).
  - apply (rm_dependencies _ _ _ H2).
  - intros x. rewrite (rm_leafs _ _ _ H2). assert (x ∉ (∅ : gset addr)) by set_solver.
    change (leafs c3) with (leafs c). change (dep_rel c3) with (dep_rel c). tauto.
Qed.

(** One iteration of the collection loop on a builder without dependents. *)
Lemma gc_step dbg pr ob b c0 Q c :
  CInv ob c0 → pruned c0 Q Q Q c → closed c0 Q → b ∉ Q → (∀ y, ¬ dep_rel c0 b y) →
  ∃ c1, invalidate_by_id dbg pr b c = COk c1 ∧
   pruned c0 ({[b]} ∪ Q) ({[b]} ∪ Q) ({[b]} ∪ Q)
     (set_leafs (.∖ {[b]}) (set_known (delete b) (set_dyn_states (delete b) c1))).
Proof.
  intros I H Hcl HbQ Hb.
  assert (CInv ob c) as I1 by (eapply CInv_pruned; [exact I|exact Hcl| | |exact H]; done).
  destruct (invalidate_by_id_spec dbg pr b c (ci_sync _ _ I1)) as (C & c1 & Hr & Hrm & HC).
  exists c1. split; [exact Hr|].
  assert (C = {[b]}) as ->.
  { apply set_eq; intros x. rewrite HC, elem_of_singleton. split; [|intros ->; apply rtc_refl].
    intros Hx. inversion Hx as [|? y ? Hy]; subst; [done|].
    exfalso. apply (pruned_dep_rel _ _ _ _ _ _ _ H) in Hy as (_ & _ & Hy). by apply (Hb y). }
  split; cbn.
  - intros x. rewrite (rm_art _ _ _ Hrm), (pn_art _ _ _ _ _ H).
    clear. repeat case_bool_decide; set_solver.
  - intros x. rewrite (rm_dyn _ _ _ Hrm). destruct (decide (x = b)) as [->|Hne].
    + rewrite lookup_delete, bool_decide_eq_true_2 by set_solver. done.
    + rewrite lookup_delete_ne by done. rewrite (pn_dyn _ _ _ _ _ H).
      clear -Hne. repeat case_bool_decide; set_solver.
  - intros x. rewrite (rm_known _ _ _ Hrm). destruct (decide (x = b)) as [->|Hne].
    + rewrite lookup_delete, bool_decide_eq_true_2 by set_solver. done.
    + rewrite lookup_delete_ne by done. rewrite (pn_known _ _ _ _ _ H).
      clear -Hne. repeat case_bool_decide; set_solver.
  - intros x. rewrite (rm_dependents _ _ _ Hrm), (pn_dependents _ _ _ _ _ H).
    clear. destruct (dependents c0 !! x) as [X|]; repeat case_bool_decide; cbn; try done; try set_solver.
    f_equal. set_solver.
  - intros x. rewrite (rm_dependencies _ _ _ Hrm), (pn_dependencies _ _ _ _ _ H).
    clear. repeat case_bool_decide; set_solver.
  - intros x. rewrite elem_of_difference, (rm_leafs _ _ _ Hrm), (pn_leafs _ _ _ _ _ H).
    setoid_rewrite (pruned_dep_rel _ _ _ _ _ _ _ H).
    setoid_rewrite elem_of_union. setoid_rewrite elem_of_singleton.
    destruct (decide (x = b)) as [->|Hne]; [tauto|].
    destruct (decide (x ∈ Q)) as [HxQ|HxQ].
    { split; [|tauto]. intros [[[? _]|[?|[(y & ? & ? & _) _]]] _]; tauto. }
    split.
    + intros [[[_ [?|[?|[(y & ? & ?) Hall]]]]|[?|[(y & -> & ?) Hall]]] _]; try tauto.
      * split; [tauto|]. right; right. split; [eauto|]. intros z Hz. right. by apply Hall.
      * split; [tauto|]. right; right. split; [exists b; tauto|]. intros z Hz.
        destruct (decide (z ∈ Q)); [by right|]. left. by apply Hall.
    + intros [_ [?|[?|[(y & Hy & Hyd) Hall]]]]; try tauto. split; [|done].
      destruct (decide (dep_rel c0 x b)) as [Hxb|Hxb].
      { right; right. split; [exists b; tauto|]. intros z (_ & Hz & Hzd).
        destruct (Hall z Hzd); [done|]. done. }
      left. split; [done|]. right; right. split.
      * exists y. split; [|done]. destruct Hy as [->|]; done.
      * intros z Hz. destruct (Hall z Hz) as [->|]; done.
Qed.

Lemma gc_loop_ok dbg pr i ob l c0 Q c :
  CInv ob c0 → pruned c0 Q Q Q c → closed c0 Q → NoDup l →
  (∀ b, b ∈ l → b ∉ Q ∧ ∀ y, ¬ dep_rel c0 b y) →
  ∃ c', gc_loop dbg pr i l c = COk c' ∧
    pruned c0 (list_to_set l ∪ Q) (list_to_set l ∪ Q) (list_to_set l ∪ Q) c' ∧
    closed c0 (list_to_set l ∪ Q).
Proof.
  revert i Q c. induction l as [|b l IH]; intros i Q c I H Hcl Hnd Hl; cbn [gc_loop].
  { exists c. cbn. rewrite !(left_id_L ∅ (∪)). done. }
  apply NoDup_cons in Hnd as [Hbl Hnd].
  destruct (Hl b) as [HbQ Hb]; [by left|].
  destruct (gc_step dbg (pr i) ob b c0 Q c I H Hcl HbQ Hb) as (c1 & -> & H1).
  destruct (IH (S i) ({[b]} ∪ Q) _ I H1) as (c' & Hr & Hp & Hc').
  - intros x y [->%elem_of_singleton|Hx]%elem_of_union Hxy; [by apply Hb in Hxy|].
    apply elem_of_union; right. by eapply Hcl.
  - done.
  - intros x Hx. destruct (Hl x) as [? ?]; [by right|]. split; [|done].
    intros [->%elem_of_singleton|?]%elem_of_union; done.
  - exists c'. cbn [list_to_set].
    assert (list_to_set l ∪ ({[b]} ∪ Q) = {[b]} ∪ list_to_set l ∪ Q) as Heq by set_solver.
    rewrite <-Heq. done.
Qed.

Lemma pruned_nothing c : pruned c ∅ ∅ ∅ c.
Proof. apply removed_pruned, removed_empty. Qed.

(** The builders [garbage_collection] collects. *)
Definition collectable (al : gset obj) (c : cache) (a : addr) : Prop :=
  a ∈ leafs c ∧ ∃ o, known c !! a = Some o ∧ o ∉ al.

Lemma unreachable_spec al c a : unreachable al c a = true ↔ ∃ o, known c !! a = Some o ∧ o ∉ al.
Proof.
  unfold unreachable, dead. destruct (known c !! a) as [o|]; [|naive_solver].
  rewrite negb_true_iff, bool_decide_eq_false. naive_solver.
Qed.

Lemma gc_check_ok ob c : CInv ob c → gc_check c = true.
Proof.
  intros I. unfold gc_check. apply forallb_forall. intros a Ha.
  apply elem_of_list_In, elem_of_elements, elem_of_dom in Ha.
  apply orb_true_iff. case_bool_decide as Hl; [by left|]. right.
  destruct (has_dependent_dec c a) as [[y Hy]|Hno].
  - unfold dep_rel in Hy. destruct (dependents c !! a) as [X|]; cbn in *; [|set_solver].
    apply negb_true_iff, bool_decide_eq_false. set_solver.
  - exfalso. by apply Hl, (ci_leaf _ _ I).
Qed.

(** [garbage_collection] panics, leaving the cache unchanged, iff some leaf is
    not known; otherwise it collects exactly the collectable builders. *)
Lemma gc_ok dbg pr al ob c : CInv ob c →
  (leafs c ⊆ dom (known c) →
   ∃ D c', garbage_collection dbg pr al c = COk c' ∧ pruned c D D D c' ∧ closed c D ∧
     (∀ a, a ∈ D ↔ collectable al c a)) ∧
  (¬ leafs c ⊆ dom (known c) → garbage_collection dbg pr al c = CPanic PkGcIndex c).
Proof.
  intros I. unfold garbage_collection. rewrite (gc_check_ok _ _ I). rewrite andb_false_r.
  set (ls := iter_order (pr 0 0) (leafs c)).
  assert (forallb (is_known c) ls = true ↔ leafs c ⊆ dom (known c)) as Hfa.
  { rewrite forallb_forall. split.
    - intros H a Ha. apply elem_of_dom. specialize (H a).
      unfold is_known in H. rewrite bool_decide_eq_true in H. apply H.
      apply elem_of_list_In. unfold ls. by apply elem_iter_order.
    - intros H a Ha%elem_of_list_In. unfold ls in Ha. apply elem_iter_order in Ha.
      unfold is_known. apply bool_decide_eq_true. apply elem_of_dom. by apply H. }
  split.
  - intros H%Hfa. rewrite H.
    set (l := filter (λ a, unreachable al c a = true) ls).
    assert (∀ a, a ∈ l ↔ collectable al c a) as Hl.
    { intros a. unfold l, collectable. rewrite elem_of_list_filter, unreachable_spec.
      unfold ls. rewrite elem_iter_order. tauto. }
    destruct (gc_loop_ok dbg pr 1 ob l c ∅ c I (pruned_nothing c)) as (c' & Hr & Hp & Hcl).
    + intros x y. set_solver.
    + apply NoDup_filter, NoDup_iter_order.
    + intros b Hb. split; [set_solver|]. apply Hl in Hb as [Hb1 (o & Hb2 & _)].
      apply (ci_leaf _ _ I); [by rewrite Hb2|done].
    + rewrite !(right_id_L ∅ (∪)) in Hp. rewrite (right_id_L ∅ (∪)) in Hcl.
      exists (list_to_set l), c'. split_and!; try done.
      intros a. rewrite elem_of_list_to_set. apply Hl.
  - intros H. destruct (forallb (is_known c) ls) eqn:Hb; [|done].
    exfalso. by apply H, Hfa.
Qed.
