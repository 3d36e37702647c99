(** What a panicking [get_mut] / [lookup_mut] leaves behind. *)
From Verif Require Export MoreFacts.
From stdpp Require Import relations.

(** The frame of the inner loop, whether it returns or panics. *)
Definition deps_frame (x : addr) (c c' : cache) : Prop :=
  artifacts c' = artifacts c ∧ dyn_states c' = dyn_states c ∧ known c' = known c ∧
  dependencies c' = dependencies c ∧
  ∀ y, dependents c' !! y = dependents c !! y ∨
       ∃ Y, dependents c !! y = Some Y ∧ dependents c' !! y = Some (Y ∖ {[x]}).

Lemma deps_frame_refl x c : deps_frame x c c.
Proof. split_and!; try done. intros y. by left. Qed.
Lemma deps_frame_trans x c1 c2 c3 : deps_frame x c1 c2 → deps_frame x c2 c3 → deps_frame x c1 c3.
Proof.
  intros (A1 & A2 & A3 & A4 & A5) (B1 & B2 & B3 & B4 & B5). split_and!; try congruence.
  intros y. destruct (A5 y) as [Ha|(Y & HY & Ha)], (B5 y) as [Hb|(Z & HZ & Hb)].
  - left. congruence.
  - right. exists Z. rewrite <- Ha. done.
  - right. exists Y. split; [done|]. congruence.
  - right. exists Y. split; [done|]. rewrite Hb. f_equal. assert (Z = Y ∖ {[x]}) as -> by congruence. set_solver.
Qed.

Lemma inv_deps_frame dbg P x l : ∀ c,
  match inv_deps dbg P x l c with COk c' | CPanic _ c' => deps_frame x c c' | CFuel => True end.
Proof.
  induction l as [|y l IH]; intros c; cbn [inv_deps]; [apply deps_frame_refl|].
  destruct (bool_decide (y ∈ P)); [apply IH|].
  destruct (dependents c !! y) as [Y|] eqn:HY; [|apply deps_frame_refl].
  assert (deps_frame x c (set_dependents <[y := Y ∖ {[x]}]> c)) as H1.
  { split_and!; try done. intros z. cbn. destruct (decide (z = y)) as [->|Hne].
    - right. exists Y. by rewrite lookup_insert.
    - left. by rewrite lookup_insert_ne. }
  destruct (dbg && _); [done|].
  match goal with |- match inv_deps _ _ _ _ ?z with _ => _ end => set (c2 := z) end.
  assert (deps_frame x c c2) as H2.
  { unfold c2. destruct (bool_decide _); [|done]. destruct H1 as (? & ? & ? & ? & ?). by split_and!. }
  specialize (IH c2). destruct (inv_deps dbg P x l c2); [by eapply deps_frame_trans..|done].
Qed.

(** What is left behind by the panic: the entry of [a] is gone, one dependent
    [z] has lost its own entries, everything else of the maps of artifacts,
    states and known builders is in place, but for the artifact of [a] itself. *)
Record leftover (a : addr) (c c' : cache) : Prop := {
  lo_art : ∀ y, y ≠ a → artifacts c' !! y = artifacts c !! y;
  lo_dyn : dyn_states c' = dyn_states c;
  lo_known : known c' = known c;
  lo_gone : dependents c' !! a = None;
  lo_deps : dependencies c' !! a = None ∨
    (dependencies c' !! a = dependencies c !! a ∧
     ∃ z, dep_rel c a z ∧ z ≠ a ∧ ∀ y, y ≠ a → y ≠ z → ∀ Y, dependents c !! y = Some Y → a ∈ Y →
       ∃ Y', dependents c' !! y = Some Y' ∧ a ∈ Y');
}.

Lemma invalidate_panics_at dbg pr a x c :
  dependents c !! a = None → x ≠ a → a ∈ default ∅ (dependencies c !! x) →
  (∀ y, y ∈ default ∅ (dependencies c !! x) → y ≠ a → y ≠ x → ∃ Y, dependents c !! y = Some Y ∧ x ∈ Y) →
  ∃ c', invalidate_by_id dbg pr x c = CPanic PkCounterpart c' ∧
    deps_frame x (set_dependencies (delete x) (set_dependents (delete x) c)) c'.
Proof.
  intros Hn Hxa Ha Hy. unfold invalidate_by_id. cbn [inv_loop].
  cbn [dependencies set_dependents].
  destruct (dependencies c !! x) as [X|] eqn:HX; cbn [default] in *; [|set_solver].
  set (c0 := set_dependencies (delete x) (set_dependents (delete x) c)).
  pose proof (inv_deps_frame dbg ({[x]} ∪ {[x]}) x (iter_order (pr (2 * 0 + 1)) X) c0) as Hf.
  destruct (inv_deps_panic dbg ({[x]} ∪ {[x]}) x a (iter_order (pr (2 * 0 + 1)) X) c0) as [c' Hp].
  - by apply elem_iter_order.
  - set_solver.
  - cbn. rewrite lookup_delete_ne by done. done.
  - apply NoDup_iter_order.
  - intros y Hy1%elem_iter_order Hy2 Hy3. cbn. rewrite lookup_delete_ne by set_solver.
    apply Hy; [done..|set_solver].
  - rewrite Hp in *. eauto.
Qed.

Lemma inv_dependents_leftover dbg pr a y c :
  sync c → dep_rel c a y → y ≠ a →
  ∃ c', invalidate_dependents dbg pr a c = CPanic PkCounterpart c' ∧ leftover a c c'.
Proof.
  intros Hs Hd Hya. unfold invalidate_dependents.
  destruct (dependents c !! a) as [X|] eqn:HX; [|unfold dep_rel in Hd; rewrite HX in Hd; set_solver].
  assert (∀ z, z ∈ X ↔ dep_rel c a z) as HXd by (intros z; unfold dep_rel; by rewrite HX).
  assert (∀ z c1, dep_rel c a z → z ≠ a → dependents c1 !! a = None → dependencies c1 !! z = dependencies c !! z →
     (∀ w, w ≠ a → ∀ W, dependents c !! w = Some W → ∃ W', dependents c1 !! w = Some W' ∧ W ∖ {[a]} ⊆ W') →
     ∀ pr', ∃ c', invalidate_by_id dbg pr' z c1 = CPanic PkCounterpart c' ∧
       deps_frame z (set_dependencies (delete z) (set_dependents (delete z) c1)) c') as Hpan.
  { intros z c1 Hz Hza Hn Hdz Hw pr'. apply (invalidate_panics_at dbg pr' a z c1); [done|done| |].
    - rewrite Hdz. by apply Hs.
    - rewrite Hdz. intros w Hw1%Hs Hwa Hwz.
      destruct (dependents c !! w) as [W|] eqn:HW; cbn in Hw1; [|set_solver].
      destruct (Hw w Hwa W HW) as (W' & HW' & Hsub). exists W'. split; [done|]. set_solver. }
  assert (∀ l i, y ∈ l → NoDup l → (∀ z, z ∈ l → z ∈ X) →
      ∃ c', inv_each dbg pr i l (set_dependents (delete a) c) = CPanic PkCounterpart c' ∧ leftover a c c') as Hall.
  { intros l i Hy Hnd Hl. destruct l as [|x l]; [by apply elem_of_nil in Hy|].
    apply NoDup_cons in Hnd as [Hxl Hnd]. cbn [inv_each].
    destruct (decide (x = a)) as [->|Hxa].
    - destruct (invalidate_self dbg (pr i) a c Hs) as (c1 & -> & Hrm).
      destruct l as [|x2 l2]; [set_solver|]. cbn [inv_each].
      assert (x2 ≠ a) as Hx2a by set_solver.
      assert (dep_rel c a x2) as Hx2 by (apply HXd, Hl; right; left).
      destruct (Hpan x2 c1) with (pr' := pr (S i)) as (c' & -> & (F1 & F2 & F3 & F4 & F5)).
      + done.
      + done.
      + rewrite (rm_dependents _ _ _ Hrm), bool_decide_eq_true_2 by set_solver. done.
      + rewrite (rm_dependencies _ _ _ Hrm), bool_decide_eq_false_2 by set_solver. done.
      + intros w Hwa W HW. rewrite (rm_dependents _ _ _ Hrm), bool_decide_eq_false_2 by set_solver.
        rewrite HW. cbn. eauto.
      + exists c'. split; [done|]. split.
        * intros z Hz. rewrite F1. cbn. rewrite (rm_art _ _ _ Hrm), bool_decide_eq_false_2 by set_solver. done.
        * rewrite F2. cbn. apply Hrm.
        * rewrite F3. cbn. apply Hrm.
        * assert (dependents (set_dependencies (delete x2) (set_dependents (delete x2) c1)) !! a = None) as Hna.
          { cbn. rewrite lookup_delete_ne by done. by rewrite (rm_dependents _ _ _ Hrm), bool_decide_eq_true_2 by set_solver. }
          destruct (F5 a) as [->|(Z & HZ & _)]; congruence.
        * left. rewrite F4. cbn. rewrite lookup_delete_ne by done.
          by rewrite (rm_dependencies _ _ _ Hrm), bool_decide_eq_true_2 by set_solver.
    - assert (dep_rel c a x) as Hx by (apply HXd, Hl; left).
      destruct (Hpan x (set_dependents (delete a) c)) with (pr' := pr i) as (c' & -> & (F1 & F2 & F3 & F4 & F5)).
      + done.
      + done.
      + cbn. apply lookup_delete.
      + done.
      + intros w Hwa W HW. cbn. rewrite lookup_delete_ne by done. exists W. split; [done|set_solver].
      + exists c'. split; [done|]. split.
        * intros z Hz. by rewrite F1.
        * by rewrite F2.
        * by rewrite F3.
        * destruct (F5 a) as [->|(Z & HZ & _)]; cbn in *; rewrite lookup_delete_ne, lookup_delete in * by done; done.
        * right. rewrite F4. cbn. rewrite lookup_delete_ne by done. split; [done|]. exists x. split_and!; try done.
          intros w Hwa Hwx W HW HaW.
          assert (dependents (set_dependencies (delete x) (set_dependents (delete x) (set_dependents (delete a) c))) !! w = Some W) as Hw.
          { cbn. by rewrite !lookup_delete_ne by done. }
          destruct (F5 w) as [->|(Z & HZ & ->)]; [eauto|].
          assert (Z = W) as -> by congruence. eexists. split; [done|]. set_solver. }
  destruct (Hall (iter_order (pr 0 0) X) 1) as (c' & -> & Hlo).
  - apply elem_iter_order. by apply HXd.
  - apply NoDup_iter_order.
  - intros z. by rewrite elem_iter_order.
  - eauto.
Qed.

(** Invalidating [a] afterwards touches the artifact of [a] only. *)
Lemma inv_deps_ok_frame dbg P x l : ∀ c,
  NoDup l → (∀ y, y ∈ l → y ∉ P → ∃ Y, dependents c !! y = Some Y ∧ x ∈ Y) →
  ∃ c', inv_deps dbg P x l c = COk c'.
Proof.
  induction l as [|y l IH]; intros c Hnd Hl; cbn [inv_deps]; [eauto|].
  apply NoDup_cons in Hnd as [Hyl Hnd].
  case_bool_decide as HyP. { apply IH; [done|]. intros z Hz. apply Hl. by right. }
  destruct (Hl y) as (Y & HY & Hx); [by left|done|]. rewrite HY.
  rewrite (bool_decide_eq_true_2 (x ∈ Y)) by done. rewrite andb_false_r.
  apply IH; [done|]. intros z Hz HzP. destruct (Hl z) as (Z & HZ & HxZ); [by right|done|].
  assert (z ≠ y) as Hzy by (intros ->; done).
  case_bool_decide; cbn; rewrite lookup_insert_ne; eauto.
Qed.

Lemma leftover_invalidate dbg pr a c c' :
  sync c → leftover a c c' → (∀ z, dep_rel c a z → z ≠ a → ¬ dep_rel c z a) →
  ∃ c2, invalidate_by_id dbg pr a c' = COk c2 ∧ known c2 = known c' ∧
    (∀ y, artifacts c2 !! y = if decide (y = a) then None else artifacts c' !! y).
Proof.
  intros Hs Hlo Hcyc. unfold invalidate_by_id. cbn [inv_loop]. rewrite (lo_gone _ _ _ Hlo).
  set (c1 := set_dependencies (delete a) (set_dependents (delete a) c')).
  set (l := match dependencies (set_dependents (delete a) c') !! a with
            | Some set => iter_order (pr (2 * 0 + 1)) set | None => [] end).
  destruct (inv_deps_ok_frame dbg ({[a]} ∪ {[a]}) a l c1) as [c3 Hc3].
  - unfold l. destruct (dependencies _ !! a); [apply NoDup_iter_order|constructor].
  - intros y Hy HyP. unfold l in Hy. cbn [dependencies set_dependents] in Hy.
    destruct (lo_deps _ _ _ Hlo) as [Hn|(Heq & z & Hz & Hza & Hkeep)]; [rewrite Hn in Hy; by apply elem_of_nil in Hy|].
    rewrite Heq in Hy. assert (a ∈ default ∅ (dependents c !! y)) as Hay.
    { change (dep_rel c y a). apply Hs. destruct (dependencies c !! a) as [W|]; [by apply elem_iter_order in Hy|].
      by apply elem_of_nil in Hy. }
    destruct (dependents c !! y) as [Y|] eqn:HY; cbn in Hay; [|set_solver].
    assert (y ≠ a) as Hya by set_solver.
    destruct (Hkeep y Hya) with (Y := Y) as (Y' & HY' & HaY'); [|done|done|].
    + intros ->. apply (Hcyc z Hz Hza). unfold dep_rel. by rewrite HY.
    + exists Y'. cbn. by rewrite lookup_delete_ne.
  - rewrite Hc3. pose proof (inv_deps_frame dbg ({[a]} ∪ {[a]}) a l c1) as Hf. rewrite Hc3 in Hf.
    destruct Hf as (F1 & _ & F3 & _). destruct (edge_count c') as [|k]; cbn [inv_loop].
    all: (eexists; split; [done|]; cbn; rewrite F1, F3; split; [done|]; intros y; cbn; destruct (decide (y = a)) as [->|Hne];
      [by rewrite lookup_delete|by rewrite lookup_delete_ne]).
Qed.

Section After.
Context (E : env).


Lemma mut_panic_state n x o s s' :
  Inv s → stack s = [] → mut_of x o → step E n x s = Panic PkCounterpart s' →
  ∃ d a c, promise o s = Some (d, a) ∧ s' = tock (set_ch c s) ∧ leftover a (ch s) c.
Proof.
  intros I Hst Hx Hs.
  assert (∃ f, e_kind E = Boxed ∧ (x = OGetMut o f ∨ x = OLookupMut o f)) as (f & Hk & Hxf).
  { destruct Hx as [[f ->]|[f ->]]; exists f; (split; [|auto]); cbn [step] in Hs;
      [unfold op_get_mut in Hs|unfold op_lookup_mut in Hs]; by destruct (e_kind E). }
  assert (∃ d a, promise o s = Some (d, a)) as (d & a & Hp).
  { destruct (promise o s) as [[d a]|] eqn:Hp; [eauto|]. destruct Hxf as [->| ->]; cbn [step] in Hs;
      [unfold op_get_mut in Hs|unfold op_lookup_mut in Hs]; by rewrite Hk, Hp in Hs. }
  assert (live s o) as Hl by (by eapply promise_live).
  destruct (mut_panics_iff E s n o f I Hst Hl Hk) as [Hi1 Hi2].
  assert (∃ u, u ≠ o ∧ depends s u o) as Hex.
  { destruct Hxf as [->| ->]; [apply Hi2|apply Hi1]; eauto. }
  apply (other_dependent s o d a I Hp) in Hex as (y & Hy & Hya).
  destruct (inv_dependents_leftover (e_dbg E) (prio E s) a y (ch s) (ci_sync _ _ (i_c _ I)) Hy Hya) as (c & Hc & Hlo).
  exists d, a, c. split_and!; [done| |done].
  destruct Hxf as [->| ->]; cbn [step] in Hs; [unfold op_get_mut in Hs|unfold op_lookup_mut in Hs];
    unfold lookup_mut in Hs; rewrite Hk, Hp, Hc in Hs; by injection Hs as <-.
Qed.

Lemma mut_panic_after n x o s s' :
  Inv s → stack s = [] → mut_of x o → step E n x s = Panic PkCounterpart s' →
  (∀ u, ¬ depends s' u o) ∧ (∀ u, u ≠ o → cached s' u = cached s u) ∧ (∀ u, state_of s' u = state_of s u) ∧
  (∀ u, knows s' u ↔ knows s u) ∧ objs s' = objs s ∧ alive s' = alive s.
Proof.
  intros I Hst Hx Hs. destruct (mut_panic_state n x o s s' I Hst Hx Hs) as (d & a & c & Hp & -> & Hlo).
  apply promise_Some in Hp as Hp'. destruct Hp' as [_ Ho].
  split_and!; try done.
  - intros u (du & ua & dw & wa & X & Hu & Hku & Hw & Hkw & HX & Hin). unfold at_addr in *. cbn in *.
    assert (wa = a) as -> by congruence. rewrite (lo_gone _ _ _ Hlo) in HX. done.
  - intros u Hne. unfold cached. cbn. rewrite (lo_known _ _ _ Hlo). destruct (objs s !! u) as [[du ua]|] eqn:Hu; [|done].
    destruct (decide (known (ch s) !! ua = Some u)) as [Hku|]; [|done].
    destruct (decide (ua = a)) as [->|Hna]; [|by rewrite (lo_art _ _ _ Hlo)].
    exfalso. apply Hne. by eapply (Inv_known_is s o d a u I Hp).
  - intros u. unfold state_of. cbn. by rewrite (lo_known _ _ _ Hlo), (lo_dyn _ _ _ Hlo).
  - intros u. unfold knows, at_addr. cbn. by rewrite (lo_known _ _ _ Hlo).
Qed.

Lemma mut_panic_stale n x o s s' m :
  Inv s → stack s = [] → mut_of x o → step E n x s = Panic PkCounterpart s' →
  (∀ u, depends s u o → u ≠ o → ¬ depends s o u) →
  ∃ s2, step E m (OInvalidate o) (unwound s') = Done OutUnit s2 ∧ cached s2 o = None ∧
    ∀ u, u ≠ o → cached s2 u = cached s u.
Proof.
  intros I Hst Hx Hs Hcyc. destruct (mut_panic_after n x o s s' I Hst Hx Hs) as (_ & Hca & _).
  destruct (mut_panic_state n x o s s' I Hst Hx Hs) as (d & a & c & Hp & -> & Hlo).
  apply promise_Some in Hp as Hp'. destruct Hp' as [_ Ho].
  destruct (leftover_invalidate (e_dbg E) (prio E (unwound (tock (set_ch c s))) 0) a (ch s) c (ci_sync _ _ (i_c _ I)) Hlo) as (c2 & Hc2 & Hk2 & Ha2).
  { intros z Hz Hza Hz2. destruct (dep_rel_depends s a z I Hz) as (u & w & du & dw & Hu & Hku & Hw & Hkw & Hd).
    assert (w = o) as -> by (by eapply (Inv_known_is s o d a w I Hp)).
    apply (Hcyc u Hd). { intros ->. unfold at_addr in *. congruence. }
    by eapply depends_dep_rel. }
  cbn [step]. change (promise o (unwound (tock (set_ch c s)))) with (promise o s). rewrite Hp.
  change (ch (unwound (tock (set_ch c s)))) with c. rewrite Hc2. cbn [lift].
  eexists. split; [done|]. split.
  - unfold cached. cbn. rewrite Ho, Hk2, (lo_known _ _ _ Hlo). destruct (decide _); [|done]. rewrite Ha2.
    by destruct (decide (a = a)).
  - intros u Hne. rewrite <- Hca by done. unfold cached. cbn. rewrite Hk2. destruct (objs s !! u) as [[du ua]|] eqn:Hu; [|done].
    destruct (decide (known c !! ua = Some u)) as [Hku|]; [|done]. rewrite Ha2.
    destruct (decide (ua = a)) as [->|]; [|done]. exfalso. apply Hne.
    rewrite (lo_known _ _ _ Hlo) in Hku. by eapply (Inv_known_is s o d a u I Hp).
Qed.
End After.
