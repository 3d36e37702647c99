(** Calls interrupted by panicking [Drop] code: what is left, and what calling
    again does. *)
From Verif Require Export RoughFacts OpFacts GcFacts Facts1.
From stdpp Require Import relations.

Lemma cut_depends s c' u w : Inv s → (∀ x y, dep_rel c' x y → dep_rel (ch s) x y) →
  (∀ x o, known c' !! x = Some o → known (ch s) !! x = Some o) →
  ∀ s', ch s' = c' → objs s' = objs s → depends s' u w → depends s u w.
Proof.
  intros I Hd Hk s' Hc Ho (du & ua & dw & wa & X & Hu & Hku & Hw & Hkw & HX & Hin).
  unfold at_addr in Hu, Hw. rewrite Ho in Hu, Hw. rewrite Hc in Hku, Hkw, HX.
  apply (depends_dep_rel s u w du ua dw wa); [done|by apply Hk|done|by apply Hk|].
  apply Hd. unfold dep_rel. by rewrite HX.
Qed.

Lemma cut_partly s o d a c' :
  Inv s → promise o s = Some (d, a) → cut_off [a] (ch s) c' →
  partly s (affected s o) (λ _, False) (tock (set_ch c' s)).
Proof.
  intros I Hp [A1 A2 A3 A4]. split; try done.
  - intros w. unfold cached. cbn. destruct (objs s !! w) as [[dw wa]|] eqn:Hw; [|by left]. rewrite A3.
    destruct (decide (known (ch s) !! wa = Some w)) as [Hk|Hk]; [|by left].
    destruct (A1 wa) as [->|[-> (x & ->%elem_of_list_singleton & Hr)]]; [by left|]. right. split; [|done].
    by apply (affected_rtc s o d a w dw wa).
  - intros w _. unfold state_of. cbn. by rewrite A2, A3.
  - intros w. unfold knows. cbn. rewrite A3. split; [intros H; split; [exact H|tauto]|tauto].
  - intros u w. apply (cut_depends s c'); [done..|by rewrite A3|done|done].
Qed.

Lemma purge_cut_partly s o d a c' da :
  Inv s → promise o s = Some (d, a) →
  ((art_bomb da (ch s) a = true ∧ c' = set_artifacts (delete a) (set_known (delete a) (ch s))) ∨
   (art_bomb da (ch s) a = false ∧
    cut_off [a] (set_dyn_states (delete a) (set_artifacts (delete a) (set_known (delete a) (ch s)))) c')) →
  partly s (affected s o) (eq o) (tock (set_ch c' s)).
Proof.
  intros I Hp Hc. apply promise_Some in Hp as Hp'. destruct Hp' as [Hal Ho].
  assert (∀ w dw wa, objs s !! w = Some (dw, wa) → known (ch s) !! wa = Some w → wa = a ↔ o = w) as Howner.
  { intros w dw wa Hw Hk. split; [intros ->; symmetry; exact (Inv_known_is s o d a w I Hp Hk)|intros ->; congruence]. }
  assert (known c' = delete a (known (ch s)) ∧ (∀ x, x ≠ a → dyn_states c' !! x = dyn_states (ch s) !! x) ∧
    (∀ x, x ≠ a → artifacts c' !! x = artifacts (ch s) !! x ∨ (artifacts c' !! x = None ∧ rtc (dep_rel (ch s)) a x)) ∧
    (∀ x y, dep_rel c' x y → dep_rel (ch s) x y)) as (B1 & B2 & B3 & B4).
  { destruct Hc as [[_ ->]|[_ [A1 A2 A3 A4]]]; cbn.
    - split_and!; [done|done|intros x Hx; left; by rewrite lookup_delete_ne|done].
    - split_and!; [done|intros x Hx; rewrite A2; cbn; by rewrite lookup_delete_ne| |exact A4].
      intros x Hx. destruct (A1 x) as [->|[-> (y & ->%elem_of_list_singleton & Hr)]].
      + left. cbn. by rewrite lookup_delete_ne.
      + right. split; [done|]. exact Hr. }
  split; try done.
  - intros w. unfold cached. cbn. destruct (objs s !! w) as [[dw wa]|] eqn:Hw; [|by left]. rewrite B1.
    destruct (decide (wa = a)) as [->|Hne].
    + rewrite lookup_delete. rewrite (decide_False (P := None = Some w)) by done.
      destruct (decide (known (ch s) !! a = Some w)) as [Hk|Hk]; [|by left].
      right. split; [|done]. apply (affected_rtc s o d a w dw a); done.
    + rewrite lookup_delete_ne by done.
      destruct (decide (known (ch s) !! wa = Some w)) as [Hk|Hk]; [|by left].
      destruct (B3 wa Hne) as [->|[-> Hr]]; [by left|]. right. split; [|done].
      by apply (affected_rtc s o d a w dw wa).
  - intros w <-. assert (¬ knows (tock (set_ch c' s)) o) as Hn.
    { intros (d' & a' & Ho' & Hk). unfold at_addr in Ho'. cbn in *. assert (a' = a) as -> by congruence.
      rewrite B1, lookup_delete in Hk. done. }
    split; [by apply cached_unknown|by apply state_unknown].
  - intros w Hne. unfold state_of. cbn. destruct (objs s !! w) as [[dw wa]|] eqn:Hw; [|done]. rewrite B1.
    destruct (decide (wa = a)) as [->|Hne'].
    + rewrite lookup_delete. rewrite (decide_False (P := None = Some w)) by done.
      destruct (decide (known (ch s) !! a = Some w)) as [Hk|Hk]; [|done].
      destruct Hne. by apply (Howner w dw a Hw Hk).
    + rewrite lookup_delete_ne by done. by rewrite B2.
  - intros w. unfold knows, at_addr. cbn. rewrite B1. split.
    + intros (dw & wa & Hw & [Hne Hk]%lookup_delete_Some). split; [eauto|]. intros <-. congruence.
    + intros [(dw & wa & Hw & Hk) Hne]. exists dw, wa. split; [done|]. rewrite lookup_delete_ne; [done|].
      intros <-. by apply Hne, (Howner w dw a Hw Hk).
  - intros u w. apply (cut_depends s c'); [done..| |done|done]. intros x o'. rewrite B1, lookup_delete_Some. tauto.
Qed.

(** Some artifact of an affected builder panicked. *)
Lemma bombed_explosive da s o d a c' :
  Inv s → promise o s = Some (d, a) → cut_off [a] (ch s) c' → bombed da (ch s) c' →
  ∃ w, affected s o w ∧ explosive da s w ∧ cached (tock (set_ch c' s)) w = None.
Proof.
  intros I Hp [A1 A2 A3 A4] (x & Hx & Hdx & Hn).
  destruct (ci_dyn_known _ _ (i_c _ I) x) as [w Hk]; [by apply (ci_art_dyn _ _ (i_c _ I))|].
  destruct (knows_known s x w I Hk) as (dw & Hw & _). exists w. split_and!.
  - apply (affected_rtc s o d a w dw x); [done..|]. destruct (A1 x) as [He|[_ (y & ->%elem_of_list_singleton & ?)]]; [|done].
    rewrite Hn in He. rewrite <- He in Hx. by destruct Hx.
  - split; [|eauto]. rewrite (cached_at s w dw x Hw Hk). destruct Hx as [e ->]. cbn. eauto.
  - unfold cached. cbn. rewrite Hw, A3, decide_True by done. by rewrite Hn.
Qed.

(** Without an explosive affected builder, nothing is interrupted. *)
Lemma bombless_invalidate da dbg pr s o d a :
  Inv s → promise o s = Some (d, a) → (∀ w, affected s o w → ¬ explosive da s w) →
  invalidate_by_id_i da dbg pr a (ch s) = invalidate_by_id dbg pr a (ch s).
Proof.
  intros I Hp Hno. destruct (invalidate_or da dbg pr a (ch s)) as [?|(c' & _ & Hc & Hb)]; [done|].
  destruct (bombed_explosive da s o d a c' I Hp Hc Hb) as (w & H1 & H2 & _). by destruct (Hno w H1).
Qed.

Section Calls.
Context (E : env) (da dd : addr → bool).

(** The calls that invalidate [o]. *)
Lemma cut_call s n x o s' :
  Inv s → (x = OInvalidate o ∨ (∃ f, x = ODynStateMut o f) ∨ (∃ f, x = OLookupMut o f) ∨ (∃ f, x = OGetMut o f)) →
  step_i da dd E n x s = Panic PkUser s' →
  step E n x s = Panic PkUser s' ∨ partly s (affected s o) (λ _, False) s'.
Proof.
  intros I Hx. destruct Hx as [->|[[f ->]|[[f ->]|[f ->]]]]; cbn [step step_i].
  - destruct (promise o s) as [[d a]|] eqn:Hp; [|done].
    destruct (invalidate_or da (e_dbg E) (prio E s 0) a (ch s)) as [->|(c' & -> & Hc & _)]; [by left|].
    cbn [lift]. intros [= <-]. right. by eapply cut_partly.
  - destruct (promise o s) as [[d a]|] eqn:Hp; [|done].
    destruct (invalidate_or da (e_dbg E) (prio E s 0) a (ch s)) as [->|(c' & -> & Hc & _)]; [by left|].
    intros [= <-]. right. by eapply cut_partly.
  - unfold op_lookup_mut_i, op_lookup_mut. destruct (e_kind E); [done|]. destruct (promise o s) as [[d a]|] eqn:Hp; [|done].
    destruct (lookup_mut_or da (e_dbg E) (prio E s) a (bd_aty d) (ch s)) as [->|(c' & -> & Hc)]; [by left|].
    intros [= <-]. right. by eapply cut_partly.
  - unfold op_get_mut_i, op_get_mut. destruct (e_kind E); [done|]. destruct (promise o s) as [[d a]|] eqn:Hp; [|done].
    destruct (lookup_mut_or da (e_dbg E) (prio E s) a (bd_aty d) (ch s)) as [->|(c' & -> & Hc)]; [by left|].
    intros [= <-]. right. by eapply cut_partly.
Qed.
Lemma cut_purge s n o s' :
  Inv s → step_i da dd E n (OPurge o) s = Panic PkUser s' → partly s (affected s o) (eq o) s'.
Proof.
  intros I. cbn [step step_i]. destruct (promise o s) as [[d a]|] eqn:Hp; [|done].
  destruct (purge_or da dd (e_dbg E) (prio E s 0) a (ch s)) as [->|(c' & -> & Hc)].
  - destruct (purge_ok (e_dbg E) (prio E s 0) a (ch s) (ci_sync _ _ (i_c _ I))) as (C & c' & -> & _). done.
  - cbn [lift]. intros [= <-]. by eapply purge_cut_partly.
Qed.

(** [purge] again: complete, if no other artifact is explosive. *)
Lemma purge_retry s n m o s' :
  Inv s → (∀ w, w ≠ o → affected s o w → ¬ explosive da s w) →
  step_i da dd E n (OPurge o) s = Panic PkUser s' →
  ∃ s'', step E m (OPurge o) (unwound s') = Done OutUnit s'' ∧ forgets s (affected s o) (eq o) s''.
Proof.
  intros I Hno. cbn [step_i]. destruct (promise o s) as [[d a]|] eqn:Hp; [|done].
  apply promise_Some in Hp as Hp'. destruct Hp' as [Hal Ho].
  set (c1 := set_known (delete a) (ch s)). set (c2 := set_artifacts (delete a) c1). set (c3 := set_dyn_states (delete a) c2).
  assert (∀ c', purge_i da dd (e_dbg E) (prio E s 0) a (ch s) = CPanic PkUser c' → c' = c2 ∨ c' = c3) as Hcut.
  { intros c'. unfold purge_i. fold c1 c2 c3. destruct (art_bomb da c1 a); [intros [= <-]; by left|].
    destruct (dyn_bomb dd c2 a); [intros [= <-]; by right|].
    destruct (invalidate_or da (e_dbg E) (prio E s 0) a c3) as [->|(c4 & _ & [A1 A2 A3 A4] & (x & Hx & Hdx & Hn))].
    - destruct (invalidate_ok (e_dbg E) (prio E s 0) a c3 (ci_sync _ _ (i_c _ I))) as (C & c5 & -> & _). done.
    - exfalso. cbn in Hx. destruct (decide (x = a)) as [->|Hne]; [rewrite lookup_delete in Hx; by destruct Hx|].
      rewrite lookup_delete_ne in Hx by done.
      destruct (ci_dyn_known _ _ (i_c _ I) x) as [w Hk]; [by apply (ci_art_dyn _ _ (i_c _ I))|].
      destruct (knows_known s x w I Hk) as (dw & Hw & _). apply (Hno w).
      + intros ->. unfold at_addr in Hw. congruence.
      + apply (affected_rtc s o d a w dw x); [done..|]. destruct (A1 x) as [He|[_ (y & ->%elem_of_list_singleton & ?)]]; [|done].
        rewrite Hn in He. cbn in He. rewrite lookup_delete_ne in He by done. rewrite <- He in Hx. by destruct Hx.
      + split; [|eauto]. rewrite (cached_at s w dw x Hw Hk). destruct Hx as [e ->]. cbn. eauto. }
  destruct (purge_i da dd (e_dbg E) (prio E s 0) a (ch s)) as [c'|k c'|] eqn:Hpi; [done| |done]. cbn [lift]. intros [= -> <-].
  cbn [step]. change (promise o (unwound (tock (set_ch c' s)))) with (promise o s). rewrite Hp.
  change (ch (unwound (tock (set_ch c' s)))) with c'. set (s1 := unwound (tock (set_ch c' s))).
  assert (sync c' ∧ dep_rel c' = dep_rel (ch s)) as [Hsy Hdr].
  { destruct (Hcut c' eq_refl) as [-> | ->]; (split; [exact (ci_sync _ _ (i_c _ I))|done]). }
  destruct (purge_ok (e_dbg E) (prio E s1 0) a c' Hsy) as (C & c'' & -> & Hpr & HC).
  cbn [lift]. eexists. split; [done|]. rewrite Hdr in HC.
  assert (a ∈ C) as HaC by (apply HC, rtc_refl).
  assert (pruned (ch s) C {[a]} ∅ c'') as Hpr'.
  { destruct Hpr as [B1 B2 B3 B4 B5 B6]. rewrite Hdr in B6.
    destruct (Hcut c' eq_refl) as [-> | ->]; cbn in B1, B2, B3, B4, B5, B6; split; try done.
    all: intros x; try rewrite B1; try rewrite B2; try rewrite B3; case_bool_decide as Hx; try done; rewrite lookup_delete_ne; set_solver. }
  eapply (pruned_forgets s _ C {[a]} ∅); try done.
  - intros x ->%elem_of_singleton. done.
  - by eapply affected_C.
  - intros w dw wa Hw Hk. rewrite elem_of_singleton. split.
    + intros ->. symmetry. eapply (Inv_known_is s o d a w); [done..|]. by eapply knows_at.
    + intros <-. unfold at_addr in Hw. congruence.
Qed.

Lemma clear_retry s n x c : clear_cut x (ch s) c → step E n x (set_ch c s) = step E n x s.
Proof.
  intros H. remember (ch s) as c0 eqn:Hc. destruct H as [x m c0 [-> | ->] _|m c0 _]; subst c0; done.
Qed.

(** [invalidate] of a builder whose own artifact is explosive. *)
Lemma explosive_invalidate s n o :
  Inv s → live s o → explosive da s o →
  ∃ s', step_i da dd E n (OInvalidate o) s = Panic PkUser s' ∧
    cached s' o = None ∧ (∀ w, w ≠ o → cached s' w = cached s w) ∧ (∀ u, ¬ depends s' u o) ∧
    ∀ m, ∃ s'', step E m (OInvalidate o) (unwound s') = Done OutUnit s'' ∧ ∀ w, cached s'' w = cached s' w.
Proof.
  intros I Hl [[b Hb] (d & a & Ho & Hda)]. assert (promise o s = Some (d, a)) as Hp by (by apply promise_Some).
  destruct (invalidate_ok (e_dbg E) (prio E s 0) a (ch s) (ci_sync _ _ (i_c _ I))) as (C & c' & Hok & _).
  assert (known (ch s) !! a = Some o) as Hk.
  { unfold cached in Hb. rewrite Ho in Hb. by destruct (decide _). }
  assert (is_Some (artifacts (ch s) !! a)) as Ha.
  { rewrite (cached_at s o d a Ho Hk) in Hb. destruct (artifacts (ch s) !! a); [eauto|done]. }
  cbn [step step_i]. rewrite Hp. unfold invalidate_by_id_i, invalidate_by_id in *.
  cbn [inv_loop_i inv_loop] in *. set (c2 := set_dependencies (delete a) (set_dependents (delete a) (ch s))) in *.
  match type of Hok with context [inv_deps ?dbg ?P' a ?l c2] => pose proof (inv_deps_frame dbg P' a l c2) as Hf; destruct (inv_deps dbg P' a l c2) as [c3|k c3|] end; [clear Hok|done..].
  destruct Hf as (F1 & F2 & F3 & F4 & F5). cbn in F1, F2, F3, F4.
  assert (art_bomb da (set_leafs ({[a]} ∪.) c3) a = true) as ->.
  { unfold art_bomb, contains_artifact. cbn. rewrite F1. apply andb_true_iff. split; [by apply bool_decide_eq_true|done]. }
  cbn [lift]. eexists. split; [done|]. set (c5 := set_artifacts (delete a) (set_leafs ({[a]} ∪.) c3)).
  assert (dependents c3 !! a = None) as Hnd.
  { destruct (F5 a) as [->|(Y & HY & _)]; cbn in *; [|rewrite lookup_delete in HY; done]. apply lookup_delete. }
  split_and!.
  - unfold cached. cbn. rewrite Ho. rewrite lookup_delete. by destruct (decide _).
  - intros w Hne. unfold cached. cbn. destruct (objs s !! w) as [[dw wa]|] eqn:Hw; [|done]. rewrite F3.
    destruct (decide (known (ch s) !! wa = Some w)) as [Hkw|]; [|done]. rewrite lookup_delete_ne, F1; [done|].
    intros <-. congruence.
  - intros u (du & ua & dw & wa & X & _ & _ & Hw & _ & HX & _). unfold at_addr in Hw. cbn in *.
    rewrite Ho in Hw. injection Hw as <- <-. congruence.
  - intros m. cbn [step]. change (promise o (unwound (tock (set_ch c5 s)))) with (promise o s). rewrite Hp.
    change (ch (unwound (tock (set_ch c5 s)))) with c5. unfold invalidate_by_id.
    cbn [inv_loop]. change (dependents c5) with (dependents c3). rewrite Hnd.
    match goal with |- context [dependencies ?z !! a] => assert (dependencies z !! a = None) as -> end.
    { cbn. rewrite F4. apply lookup_delete. }
    cbn [inv_deps]. destruct (edge_count c5); cbn [inv_loop lift]; (eexists; split; [done|]); intros w; unfold cached; cbn;
      destruct (objs s !! w) as [[dw wa]|]; try done; destruct (decide _); try done; by rewrite delete_idemp.
Qed.
End Calls.

(** ** Garbage collection *)

(** Without dependents, an invalidation drops one artifact, as its last action. *)
Lemma invalidate_leaf da dbg pr a c c1 :
  (∀ y, ¬ dep_rel c a y) → invalidate_by_id dbg pr a c = COk c1 →
  invalidate_by_id_i da dbg pr a c = COk c1 ∨ invalidate_by_id_i da dbg pr a c = CPanic PkUser c1.
Proof.
  intros Hno. unfold invalidate_by_id, invalidate_by_id_i. cbn [inv_loop inv_loop_i].
  assert (match dependents c !! a with Some X => rev (iter_order (pr (2 * 0)) X) ++ [] | None => [] end = []) as ->.
  { unfold dep_rel in Hno. destruct (dependents c !! a) as [X|]; [|done]. cbn in Hno.
    assert (X = ∅) as -> by set_solver. done. }
  match goal with |- context [inv_deps dbg ?P ?x ?l ?z] => destruct (inv_deps dbg P x l z) as [c3|k c3|] end; [|done..].
  destruct (edge_count c); cbn [inv_loop inv_loop_i]; intros [= <-]; destruct (art_bomb _ _ _); auto.
Qed.

(** Between the removal of the artifact and that of the weak reference. *)
Lemma gc_half dbg pr ob b c0 Q c :
  CInv ob c0 → pruned c0 Q Q Q c → closed c0 Q → b ∉ Q → (∀ y, ¬ dep_rel c0 b y) →
  ∃ c1, invalidate_by_id dbg pr b c = COk c1 ∧ pruned c0 ({[b]} ∪ Q) Q Q c1.
Proof.
  intros I H Hcl HbQ Hb.
  assert (CInv ob c) as I1 by (eapply CInv_pruned; [exact I|exact Hcl| | |exact H]; done).
  destruct (invalidate_by_id_spec dbg pr b c (ci_sync _ _ I1)) as (C & c1 & Hr & Hrm & HC).
  exists c1. split; [exact Hr|].
  assert (C = {[b]}) as ->.
  { apply set_eq; intros x. rewrite HC, elem_of_singleton. split; [|intros ->; apply rtc_refl].
    intros Hx. inversion Hx as [|? y ? Hy]; subst; [done|].
    exfalso. apply (pruned_dep_rel _ _ _ _ _ _ _ H) in Hy as (_ & _ & Hy). by apply (Hb y). }
  split; cbn.
  - intros x. rewrite (rm_art _ _ _ Hrm), (pn_art _ _ _ _ _ H).
    clear. repeat case_bool_decide; set_solver.
  - intros x. rewrite (rm_dyn _ _ _ Hrm). apply (pn_dyn _ _ _ _ _ H).
  - intros x. rewrite (rm_known _ _ _ Hrm). apply (pn_known _ _ _ _ _ H).
  - intros x. rewrite (rm_dependents _ _ _ Hrm), (pn_dependents _ _ _ _ _ H).
    clear. destruct (dependents c0 !! x) as [X|]; repeat case_bool_decide; cbn; try done; try set_solver.
    f_equal. set_solver.
  - intros x. rewrite (rm_dependencies _ _ _ Hrm), (pn_dependencies _ _ _ _ _ H).
    clear. repeat case_bool_decide; set_solver.
  - intros x. rewrite (rm_leafs _ _ _ Hrm), (pn_leafs _ _ _ _ _ H).
    setoid_rewrite (pruned_dep_rel _ _ _ _ _ _ _ H).
    setoid_rewrite elem_of_union. setoid_rewrite elem_of_singleton.
    destruct (decide (x = b)) as [->|Hne]; [tauto|].
    destruct (decide (x ∈ Q)) as [HxQ|HxQ].
    { split; [|tauto]. intros [[? _]|[?|[(y & ? & ? & _) _]]]; tauto. }
    split.
    + intros [[_ [?|[?|[(y & ? & ?) Hall]]]]|[?|[(y & -> & ?) Hall]]]; try tauto.
      * split; [tauto|]. right; right. split; [eauto|]. intros z Hz. right. by apply Hall.
      * split; [tauto|]. right; right. split; [exists b; tauto|]. intros z Hz.
        destruct (decide (z ∈ Q)); [by right|]. left. by apply Hall.
    + intros [_ [?|[?|[(y & Hy & Hyd) Hall]]]]; try tauto.
      destruct (decide (dep_rel c0 x b)) as [Hxb|Hxb].
      { right; right. split; [exists b; tauto|]. intros z (_ & Hz & Hzd).
        destruct (Hall z Hzd); [done|]. done. }
      left. split; [done|]. right; right. split.
      * exists y. split; [|done]. destruct Hy as [->|]; done.
      * intros z Hz. destruct (Hall z Hz) as [->|]; done.
Qed.

(** An interrupted collection: some builders are collected, of one the artifact
    is gone, and possibly its state. *)
Definition gc_broken (c0 : cache) (l : list addr) (c' : cache) : Prop :=
  ∃ Q b c1, (∀ x, x ∈ Q → x ∈ l) ∧ b ∈ l ∧ b ∉ Q ∧ closed c0 ({[b]} ∪ Q) ∧ pruned c0 ({[b]} ∪ Q) Q Q c1 ∧
    (c' = c1 ∨ c' = set_dyn_states (delete b) c1).
Lemma gc_loop_broken da dd dbg pr i ob l c0 Q c l0 c' :
  CInv ob c0 → pruned c0 Q Q Q c → closed c0 Q → NoDup l →
  (∀ b, b ∈ l → b ∈ l0 ∧ b ∉ Q ∧ ∀ y, ¬ dep_rel c0 b y) → (∀ x, x ∈ Q → x ∈ l0) →
  gc_loop_i da dd dbg pr i l c = CPanic PkUser c' → gc_broken c0 l0 c'.
Proof.
  revert i Q c. induction l as [|b l IH]; intros i Q c I H Hcl Hnd Hl HQ; cbn [gc_loop_i]; [done|].
  apply NoDup_cons in Hnd as [Hbl Hnd].
  destruct (Hl b) as (Hb0 & HbQ & Hb); [by left|].
  assert (closed c0 ({[b]} ∪ Q)) as Hcl'.
  { intros x y [->%elem_of_singleton|Hx]%elem_of_union Hxy; [by apply Hb in Hxy|]. apply elem_of_union; right. by eapply Hcl. }
  destruct (gc_half dbg (pr i) ob b c0 Q c I H Hcl HbQ Hb) as (c1 & Hc1 & Hh).
  destruct (gc_step dbg (pr i) ob b c0 Q c I H Hcl HbQ Hb) as (c1' & Hc1' & H1).
  assert (c1' = c1) as -> by congruence.
  assert (∀ y, ¬ dep_rel c b y) as Hbc. { intros y Hy. apply (pruned_dep_rel _ _ _ _ _ _ _ H) in Hy as (_ & _ & Hy). by apply (Hb y). }
  destruct (invalidate_leaf da dbg (pr i) b c c1 Hbc Hc1) as [-> | ->].
  - destruct (dyn_bomb dd c1 b).
    + intros [= <-]. exists Q, b, c1. auto 10.
    + apply (IH (S i) ({[b]} ∪ Q)); [done..| |].
      * intros x Hx. destruct (Hl x) as (? & ? & ?); [by right|]. split_and!; try done.
        intros [->%elem_of_singleton|?]%elem_of_union; done.
      * intros x [->%elem_of_singleton|?]%elem_of_union; auto.
  - intros [= <-]. exists Q, b, c1. auto 10.
Qed.
Lemma gc_broken_ok da dd dbg pr al ob c c' :
  CInv ob c → garbage_collection_i da dd dbg pr al c = CPanic PkUser c' →
  ∃ l, lk c ∧ (∀ a, a ∈ l ↔ collectable al c a) ∧ gc_broken c l c'.
Proof.
  intros I. unfold garbage_collection_i. rewrite (gc_check_ok _ _ I). rewrite andb_false_r.
  set (ls := iter_order (pr 0 0) (leafs c)). destruct (forallb (is_known c) ls) eqn:Hf; [|done].
  set (l := filter (λ a, unreachable al c a = true) ls).
  assert (∀ a, a ∈ l ↔ collectable al c a) as Hl.
  { intros a. unfold l, collectable. rewrite elem_of_list_filter, unreachable_spec.
    unfold ls. rewrite elem_iter_order. tauto. }
  intros Hg. exists l. split_and!; [|exact Hl|].
  - intros a Ha. rewrite forallb_forall in Hf. apply elem_of_dom. specialize (Hf a).
    unfold is_known in Hf. rewrite bool_decide_eq_true in Hf. apply Hf.
    apply elem_of_list_In. unfold ls. by apply elem_iter_order.
  - eapply (gc_loop_broken da dd dbg pr 1 ob l c ∅ c l c' I (pruned_nothing c)); [| | |set_solver|exact Hg].
    + intros x y. set_solver.
    + apply NoDup_filter, NoDup_iter_order.
    + intros b Hb. split; [done|]. split; [set_solver|]. apply Hl in Hb as [Hb1 (o & Hb2 & _)].
      apply (ci_leaf _ _ I); [by rewrite Hb2|done].
Qed.

Lemma CInv_del_dyn ob b c : CInv ob c → artifacts c !! b = None → CInv ob (set_dyn_states (delete b) c).
Proof.
  intros I Hb. split; try apply I; cbn.
  - intros a Ha. rewrite lookup_delete_ne; [by apply (ci_art_dyn _ _ I)|]. intros <-. rewrite Hb in Ha. by destruct Ha.
  - intros a [v [_ Hv]%lookup_delete_Some]. apply (ci_dyn_known _ _ I). eauto.
  - intros a e o d [_ He]%lookup_delete_Some. by apply (ci_dyn_ty _ _ I).
Qed.

Section Gc.
Context (E : env).
Section Bombs.
Context (da dd : addr → bool).

Lemma gc_broken_Inv s n s' :
  Inv s → stack s = [] → step_i da dd E n OGc s = Panic PkUser s' → Inv s' ∧ stack s' = [] ∧ lk (ch s').
Proof.
  intros I Hst. cbn [step_i]. destruct (garbage_collection_i _ _ _ _ _ _) as [c|k c|] eqn:Hg; [done| |done].
  cbn [lift]. intros [= -> <-]. destruct (gc_broken_ok _ _ _ _ _ _ _ _ (i_c _ I) Hg) as (l & Hlk & Hl & (Q & b & c1 & HQ & Hbl & HbQ & Hcl & Hpr & Hc)).
  assert (CInv (objs s) c1) as I1 by (eapply CInv_pruned; [apply I|exact Hcl| | |exact Hpr]; set_solver).
  assert (artifacts c1 !! b = None) as Hab. { rewrite (pn_art _ _ _ _ _ Hpr). rewrite bool_decide_eq_true_2; [done|set_solver]. }
  assert (CInv (objs s) c ∧ known c = known c1 ∧ leafs c = leafs c1) as (I2 & Hk & Hlf).
  { destruct Hc as [-> | ->]; [done|]. split_and!; [by apply CInv_del_dyn|done..]. }
  split_and!; [|done|].
  - apply Inv_tock, Inv_set_ch; [done..|]. rewrite Hk. by eapply pruned_known_pinned.
  - unfold lk. cbn. rewrite Hk, Hlf. eapply (pruned_lk _ _ _ _ _ _ (i_c _ I) Hpr); [done| |done].
    assert (∀ x, x ∈ l → x ∈ dom (known (ch s))) as Hld.
    { intros x Hx. apply Hl in Hx as [_ (o & Ho & _)]. apply elem_of_dom. eauto. }
    intros x [->%elem_of_singleton|Hx]%elem_of_union; auto.
Qed.

Lemma gc_broken_effect s n s' :
  Inv s → step_i da dd E n OGc s = Panic PkUser s' →
  ∃ F : obj → Prop, (∀ w, F w → collected s w) ∧ (∃ w, F w) ∧ collects_partly s F s'.
Proof.
  intros I. cbn [step_i]. destruct (garbage_collection_i _ _ _ _ _ _) as [c|k c|] eqn:Hg; [done| |done].
  cbn [lift]. intros [= -> <-]. destruct (gc_broken_ok _ _ _ _ _ _ _ _ (i_c _ I) Hg) as (l & Hlk & Hl & (Q & b & c1 & HQ & Hbl & HbQ & Hcl & Hpr & Hc)).
  set (F w := ∃ d a, at_addr s w d a ∧ knows s w ∧ a ∈ {[b]} ∪ Q).
  set (G w := ∃ d a, at_addr s w d a ∧ knows s w ∧ a ∈ Q).
  assert (∀ (P : gset addr) w d a, at_addr s w d a → knows s w →
    a ∈ P ↔ ∃ d' a', at_addr s w d' a' ∧ knows s w ∧ a' ∈ P) as HP.
  { intros P w d a Hw Hk. split; [eauto|]. intros (d' & a' & Hw' & _ & Ha). unfold at_addr in *. congruence. }
  assert (forgets s F G (tock (set_ch c1 s))) as Hf.
  { eapply (pruned_forgets s _ ({[b]} ∪ Q) Q Q); try done; [set_solver|apply HP..]. }
  assert (∀ w, F w → collected s w) as HFc.
  { intros w (d & a & Hw & Hk & Ha). assert (collectable (alive s) (ch s) a) as [Hlf (o & Ho & Hd)].
    { apply Hl. apply elem_of_union in Ha as [->%elem_of_singleton|?]; auto. }
    assert (known (ch s) !! a = Some w) as Hka by (by eapply knows_at).
    assert (o = w) as -> by congruence. split_and!; [done..|].
    intros u Hu. apply depends_knows in Hu as Hku. destruct Hku as [(du & ua & Hua & Hku) _].
    rewrite (ci_leaf _ _ (i_c _ I)) in Hlf by eauto. eapply Hlf. by eapply (depends_dep_rel s u w). }
  assert (∃ w, F w) as HFe.
  { apply Hl in Hbl as [_ (o & Ho & _)]. destruct (knows_known s b o I Ho) as (d & Hd & Hk). exists o, d, b. set_solver. }
  exists F. split_and!; [done..|].
  assert (∀ w, G w → F w) as HGF. { intros w (d & a & ? & ? & ?). exists d, a. set_solver. }
  assert (∀ w, state_of (tock (set_ch c s)) w = state_of (tock (set_ch c1 s)) w ∨ (F w ∧ state_of (tock (set_ch c s)) w = None)) as Hs.
  { intros w. destruct Hc as [-> | ->]; [by left|]. unfold state_of. cbn. destruct (objs s !! w) as [[dw wa]|] eqn:Hw; [|by left].
    destruct (decide (known c1 !! wa = Some w)) as [Hkw|]; [|by left]. destruct (decide (wa = b)) as [->|Hne].
    - right. rewrite lookup_delete. split; [|done]. exists dw, b. split; [done|]. split; [|set_solver].
      rewrite (pn_known _ _ _ _ _ Hpr), bool_decide_eq_false_2 in Hkw by done. exists dw, b. done.
    - left. by rewrite lookup_delete_ne. }
  assert (∀ w, cached (tock (set_ch c s)) w = cached (tock (set_ch c1 s)) w) as Hca by (by destruct Hc as [-> | ->]).
  assert (∀ w, knows (tock (set_ch c s)) w ↔ knows (tock (set_ch c1 s)) w) as Hkn by (by destruct Hc as [-> | ->]).
  assert (∀ u w, depends (tock (set_ch c s)) u w ↔ depends (tock (set_ch c1 s)) u w) as Hde by (by destruct Hc as [-> | ->]).
  split; try done.
  - intros w Hw. rewrite Hca. by apply (fg_gone _ _ _ _ Hf).
  - intros w Hw. split_and!.
    + rewrite Hca. by apply (fg_kept _ _ _ _ Hf).
    + destruct (Hs w) as [->|[? _]]; [|done]. apply (fg_state_kept _ _ _ _ Hf). auto.
    + rewrite Hkn, (fg_knows _ _ _ _ Hf). split; [tauto|]. intros ?. split; [done|]. auto.
  - intros w. destruct (Hs w) as [->|[_ ?]]; [|by right].
    destruct (state_of (tock (set_ch c1 s)) w) as [v|] eqn:Hv; [|by right]. left.
    rewrite <- Hv. apply (fg_state_kept _ _ _ _ Hf). intros HG. rewrite (fg_state_gone _ _ _ _ Hf) in Hv; done.
  - intros w. rewrite Hkn, (fg_knows _ _ _ _ Hf). tauto.
  - intros u w. rewrite Hde. apply (fg_depends _ _ _ _ Hf).
Qed.

(** Collecting again finishes the job. *)
Lemma gc_retry s n m s' :
  Inv s → stack s = [] → step_i da dd E n OGc s = Panic PkUser s' →
  ∃ s'', step E m OGc (unwound s') = Done OutUnit s'' ∧ ∀ w, collected s w → ¬ knows s'' w ∧ cached s'' w = None ∧ state_of s'' w = None.
Proof.
  intros I Hst Hs. destruct (gc_broken_Inv s n s' I Hst Hs) as (I1 & Hst1 & Hlk).
  destruct (gc_broken_effect s n s' I Hs) as (F & HF & _ & Hp).
  assert (unwound s' = s') as ->. { destruct s'; cbn in *. by subst. }
  destruct (gc_ok (e_dbg E) (prio E s') (alive s') (objs s') (ch s') (i_c _ I1)) as [Hok _].
  destruct (Hok Hlk) as (D & c' & Heq & _). assert (∃ s'', step E m OGc s' = Done OutUnit s'') as [s'' Hs''].
  { cbn [step]. rewrite Heq. cbn. eauto. }
  exists s''. split; [done|]. intros w Hw.
  destruct (gc_done_effect E m s' _ s'' I1 Hs'') as [_ Hf].
  assert (¬ knows s'' w) as Hn; [|split_and!; [done|by apply cached_unknown|by apply state_unknown]].
  rewrite (fg_knows _ _ _ _ Hf). intros [Hk Hc]. apply Hc. destruct Hw as (Hkw & Hlw & Hdw). split_and!; [done| |].
  - by rewrite (cp_live _ _ _ Hp).
  - intros u Hu. apply (cp_depends _ _ _ Hp) in Hu as [Hu _]. by eapply Hdw.
Qed.

End Bombs.

Lemma gc_broken_keeps da dd s n s' :
  Inv s → stack s = [] → all_built E s → (reent s = false → coh s) → step_i da dd E n OGc s = Panic PkUser s' →
  Inv (unwound s') ∧ stack (unwound s') = [] ∧ all_built E (unwound s') ∧ (reent (unwound s') = false → coh (unwound s')).
Proof.
  intros I Hst Hb Hc Hs.
  destruct (gc_broken_Inv da dd s n s' I Hst Hs) as (I' & Hst' & _).
  destruct (gc_broken_effect da dd s n s' I Hs) as (F & HF & _ & Hp).
  assert (unwound s' = s') as Heq by (destruct s'; cbn in *; by subst). rewrite Heq.
  assert (∀ w, is_Some (cached s' w) → ¬ F w) as HnF.
  { intros w [b Hw] HFw. rewrite (cp_gone _ _ _ Hp) in Hw; done. }
  split_and!; [done..| |].
  + intros o b Ho. assert (¬ F o) as HnFo by (apply HnF; eauto).
    apply (from_build_app E s s' []); [apply (cp_trace _ _ _ Hp)|done..|].
    apply Hb. by rewrite <- (proj1 (cp_kept _ _ _ Hp o HnFo)).
  + intros Hre. rewrite (cp_reent _ _ _ Hp) in Hre. specialize (Hc Hre).
    apply (coh_mono s s' []); [done|apply (cp_trace _ _ _ Hp)|..].
    * intros u [Hu|Hu] _; [|rewrite Hst' in Hu; by apply elem_of_nil in Hu]. left.
      by rewrite <- (proj1 (cp_kept _ _ _ Hp u (HnF u Hu))).
    * intros u w Hd [Hu|Hu]; [|rewrite Hst' in Hu; by apply elem_of_nil in Hu].
      apply (cp_depends _ _ _ Hp). split_and!; [done|by apply HnF|].
      intros (_ & _ & Hn)%HF. by eapply Hn.
    * intros u w b Hd _ Hw. rewrite (proj1 (cp_kept _ _ _ Hp w ltac:(intros (_ & _ & Hn)%HF; by eapply Hn))). done.
    * intros u w rv l1 l2 Hl. by destruct l1.
Qed.

(** ** Histories with interrupted collections *)
Lemma sturdy_Inv s : sturdy E s → Inv s ∧ stack s = [] ∧ all_built E s ∧ (reent s = false → coh s).
Proof.
  induction 1 as [|s n x r s' _ (I & Hst & Hb & Hc) Hs|s n x k s' _ (I & Hst & Hb & Hc) Hs Hk|s da' dd' n s' _ (I & Hst & Hb & Hc) Hs].
  - split_and!; [apply Inv_init|done|intros o b Hb; done|].
    intros _ u w rv l1 l2 [[b Hb]|Hu]; [done|by apply elem_of_nil in Hu].
  - destruct (step_Inv E n x s r s' I Hst Hs) as [I' Hst']. assert (goes (step E n x s) s') as Hg by (left; eauto).
    split_and!; [done..|exact (step_all_built E n x s s' I Hst Hg Hb)|].
    intros Hre. assert (reent s = false) as Hr by (exact (goes_reent E n x s s' I Hst Hg Hre)).
    pose proof (step_coh E n x s s' I Hst Hg Hre (Hc Hr)) as H.
    assert (unwound s' = s') as Heq by (destruct s'; cbn in *; by subst). by rewrite Heq in H.
  - assert (goes (step E n x s) s') as Hg by (right; eauto).
    assert (Inv (unwound s')) as I'.
    { destruct (step_panic E n x s k s' I Hst Hs) as [[_ ?]|[(_ & _ & -> & _)|[_ ->]]]; [done| |done].
      assert (unwound (tock s) = tock s) as -> by (destruct s; cbn in *; by subst). by apply Inv_tock. }
    split_and!; [done..|exact (step_all_built E n x s s' I Hst Hg Hb)|].
    intros Hre. change (reent s' = false) in Hre.
    assert (reent s = false) as Hr by (exact (goes_reent E n x s s' I Hst Hg Hre)).
    exact (step_coh E n x s s' I Hst Hg Hre (Hc Hr)).
  - exact (gc_broken_keeps da' dd' s n s' I Hst Hb Hc Hs).
Qed.
End Gc.
