(** Interrupted calls (Interrupt.v): how they relate to the uninterrupted ones. *)
From Verif Require Export RoughSpec AfterFacts.
From stdpp Require Import relations.

(** Without bombs nothing changes. *)
Section None.
Context (da dd : addr → bool) (Hda : ∀ a, da a = false) (Hdd : ∀ a, dd a = false).
Lemma art_no_bomb c a : art_bomb da c a = false.
Proof. unfold art_bomb. rewrite Hda. apply andb_false_r. Qed.
Lemma dyn_no_bomb c a : dyn_bomb dd c a = false.
Proof. unfold dyn_bomb. rewrite Hdd. apply andb_false_r. Qed.

Lemma inv_loop_none fuel dbg pr : ∀ i P L c, inv_loop_i da fuel dbg pr i P L c = inv_loop fuel dbg pr i P L c.
Proof.
  induction fuel as [|fuel IH]; intros i P L c; destruct L as [|x L]; try done.
  cbn [inv_loop_i inv_loop]. destruct (inv_deps _ _ _ _ _); try done. rewrite art_no_bomb. apply IH.
Qed.
Lemma invalidate_none dbg pr a c : invalidate_by_id_i da dbg pr a c = invalidate_by_id dbg pr a c.
Proof. apply inv_loop_none. Qed.
Lemma inv_each_none dbg pr l : ∀ i c, inv_each_i da dbg pr i l c = inv_each dbg pr i l c.
Proof.
  induction l as [|x l IH]; intros i c; [done|]. cbn [inv_each_i inv_each]. rewrite invalidate_none.
  destruct (invalidate_by_id _ _ _ _); try done.
Qed.
Lemma inv_dependents_none dbg pr a c : invalidate_dependents_i da dbg pr a c = invalidate_dependents dbg pr a c.
Proof. unfold invalidate_dependents_i, invalidate_dependents. destruct (dependents c !! a); [by rewrite inv_each_none|done]. Qed.
Lemma lookup_mut_none dbg pr a t c : lookup_mut_i da dbg pr a t c = lookup_mut dbg pr a t c.
Proof. unfold lookup_mut_i, lookup_mut. by rewrite inv_dependents_none. Qed.
Lemma purge_none dbg pr a c : purge_i da dd dbg pr a c = purge dbg pr a c.
Proof. unfold purge_i. rewrite art_no_bomb, dyn_no_bomb. apply invalidate_none. Qed.
Lemma gc_loop_none dbg pr l : ∀ i c, gc_loop_i da dd dbg pr i l c = gc_loop dbg pr i l c.
Proof.
  induction l as [|x l IH]; intros i c; [done|]. cbn [gc_loop_i gc_loop]. rewrite invalidate_none.
  destruct (invalidate_by_id _ _ _ _); try done. rewrite dyn_no_bomb. apply IH.
Qed.
Lemma gc_none dbg pr al c : garbage_collection_i da dd dbg pr al c = garbage_collection dbg pr al c.
Proof. unfold garbage_collection_i, garbage_collection. by rewrite gc_loop_none. Qed.
Lemma step_i_none E n x s : step_i da dd E n x s = step E n x s.
Proof.
  destruct x; try done; cbn [step_i step].
  - unfold op_get_mut_i, op_get_mut. destruct (e_kind E); [done|]. destruct (promise o s) as [[d a]|]; [|done].
    rewrite lookup_mut_none. done.
  - unfold op_lookup_mut_i, op_lookup_mut. destruct (e_kind E); [done|]. destruct (promise o s) as [[d a]|]; [|done].
    rewrite lookup_mut_none. done.
  - destruct (promise o s) as [[d a]|]; [|done]. by rewrite invalidate_none.
  - destruct (promise o s) as [[d a]|]; [|done]. by rewrite invalidate_none.
  - destruct (promise o s) as [[d a]|]; [|done]. by rewrite purge_none.
  - by rewrite gc_none.
Qed.
End None.
Definition no_bomb (a : addr) : bool := false.
Lemma step_none E n x s : step_i no_bomb no_bomb E n x s = step E n x s.
Proof. by apply step_i_none. Qed.

(** [c'] is [c] after an invalidation starting from [L] was cut off: some
    artifacts of transitive dependents are gone, nothing else of what can be
    observed.  (Recorded dependencies are lost as well.) *)
Record cut_off (L : list addr) (c c' : cache) : Prop := {
  co_art : ∀ a, artifacts c' !! a = artifacts c !! a ∨
    (artifacts c' !! a = None ∧ ∃ x, x ∈ L ∧ rtc (dep_rel c) x a);
  co_dyn : dyn_states c' = dyn_states c;
  co_known : known c' = known c;
  co_dep : ∀ x y, dep_rel c' x y → dep_rel c x y;
}.
Lemma cut_off_trans L L' c c1 c2 :
  cut_off L c c1 → cut_off L' c1 c2 → (∀ x, x ∈ L' → ∃ y, y ∈ L ∧ rtc (dep_rel c) y x) → cut_off L c c2.
Proof.
  intros [A1 A2 A3 A4] [B1 B2 B3 B4] HL. split; [|congruence..|auto].
  intros a. destruct (B1 a) as [->|[Hn (x & Hx & Hr)]]; [apply A1|]. right. split; [done|].
  destruct (HL x Hx) as (y & Hy & Hxy). exists y. split; [done|]. etrans; [done|].
  clear -Hr A4. induction Hr as [|u v w H _ IH]; [done|]. eapply rtc_l; [by apply A4|done].
Qed.
Lemma deps_frame_cut x c c' :
  deps_frame x (set_dependencies (delete x) (set_dependents (delete x) c)) c' → cut_off [x] c (set_artifacts (delete x) c').
Proof.
  intros (F1 & F2 & F3 & _ & F5). split; cbn.
  - intros a. destruct (decide (a = x)) as [->|Hne].
    + right. rewrite lookup_delete. split; [done|]. exists x. split; [left|done].
    + left. by rewrite lookup_delete_ne, F1.
  - by rewrite F2.
  - by rewrite F3.
  - intros u v. unfold dep_rel. cbn. destruct (F5 u) as [->|(Y & HY & ->)]; cbn in *.
    + destruct (decide (u = x)) as [->|]; [by rewrite lookup_delete|by rewrite lookup_delete_ne].
    + apply lookup_delete_Some in HY as [_ ->]. cbn. set_solver.
Qed.

Lemma cut_off_refl L c : cut_off L c c.
Proof. split; [by left|done..]. Qed.
Lemma cut_off_mono L L' c c' : (∀ x, x ∈ L → x ∈ L') → cut_off L c c' → cut_off L' c c'.
Proof.
  intros HL [A1 A2 A3 A4]. split; try done. intros a. destruct (A1 a) as [?|[? (y & Hy & Hr)]]; [by left|right].
  split; [done|]. exists y. auto.
Qed.
Lemma pending_cut (c : cache) x L y pr :
  y ∈ match dependents c !! x with Some X => rev (iter_order pr X) ++ L | None => L end →
  ∃ z, z ∈ x :: L ∧ rtc (dep_rel c) z y.
Proof.
  intros Hy. assert (y ∈ L ∨ dep_rel c x y) as [HyL|Hd].
  { unfold dep_rel. destruct (dependents c !! x) as [X|]; [|by left]. apply elem_of_app in Hy as [Hy|Hy]; [|by left].
    right. cbn. apply elem_of_list_In, in_rev, elem_of_list_In in Hy. unfold iter_order in Hy.
    rewrite merge_sort_Permutation in Hy. by apply elem_of_elements in Hy. }
  - exists y. split; [by right|done].
  - exists x. split; [left|by apply rtc_once].
Qed.
(** A complete invalidation loses no more than that either, whatever the graph
    looks like. *)
Lemma inv_loop_cut fuel dbg pr : ∀ i P L c,
  match inv_loop fuel dbg pr i P L c with COk c' | CPanic _ c' => cut_off L c c' | CFuel => True end.
Proof.
  induction fuel as [|fuel IH]; intros i P L c; (destruct L as [|x L]; [apply cut_off_refl|]); [done|].
  cbn [inv_loop]. set (c2 := set_dependencies (delete x) (set_dependents (delete x) c)).
  match goal with |- context [inv_deps dbg ?P' x ?l c2] => pose proof (inv_deps_frame dbg P' x l c2) as Hf; destruct (inv_deps dbg P' x l c2) as [c3|k c3|] end; [| |done].
  - pose proof (deps_frame_cut _ _ _ Hf) as Hc.
    assert (cut_off [x] c (set_artifacts (delete x) (set_leafs ({[x]} ∪.) c3))) as Hc5 by (destruct Hc; by split).
    apply (cut_off_mono _ (x :: L)) in Hc5; [|intros y ->%elem_of_list_singleton; left].
    match goal with |- match inv_loop _ _ _ ?i0 ?P0 ?L0 ?c0 with _ => _ end => specialize (IH i0 P0 L0 c0); destruct (inv_loop fuel dbg pr i0 P0 L0 c0) as [c'|k c'|] end; [| |done].
    all: eapply cut_off_trans; [exact Hc5|exact IH|]; intros y; apply pending_cut.
  - destruct Hf as (F1 & F2 & F3 & _ & F5). split; [|by rewrite ?F2, ?F3..|].
    + intros a. left. by rewrite F1.
    + intros u v. unfold dep_rel. cbn. destruct (F5 u) as [->|(Y & HY & ->)]; cbn in *.
      * destruct (decide (u = x)) as [->|]; [by rewrite lookup_delete|by rewrite lookup_delete_ne].
      * apply lookup_delete_Some in HY as [_ ->]. cbn. set_solver.
Qed.
Lemma invalidate_cut dbg pr a c :
  match invalidate_by_id dbg pr a c with COk c' | CPanic _ c' => cut_off [a] c c' | CFuel => True end.
Proof. apply inv_loop_cut. Qed.

Section Bombs.
Context (da dd : addr → bool).

Lemma inv_loop_or fuel dbg pr : ∀ i P L c,
  inv_loop_i da fuel dbg pr i P L c = inv_loop fuel dbg pr i P L c ∨
  ∃ c', inv_loop_i da fuel dbg pr i P L c = CPanic PkUser c' ∧ cut_off L c c' ∧
    ∃ a, is_Some (artifacts c !! a) ∧ da a = true ∧ artifacts c' !! a = None.
Proof.
  induction fuel as [|fuel IH]; intros i P L c; (destruct L as [|x L]; [by left|]); [by left|].
  cbn [inv_loop_i inv_loop]. set (c2 := set_dependencies (delete x) (set_dependents (delete x) c)).
  match goal with |- context [inv_deps dbg ?P' x ?l c2] => pose proof (inv_deps_frame dbg P' x l c2) as Hf; destruct (inv_deps dbg P' x l c2) as [c3|k c3|] end; [|by left..].
  pose proof (deps_frame_cut _ _ _ Hf) as Hc. destruct Hf as (F1 & F2 & F3 & _).
  assert (cut_off [x] c (set_artifacts (delete x) (set_leafs ({[x]} ∪.) c3))) as Hc5 by (destruct Hc; by split).
  destruct (art_bomb da (set_leafs ({[x]} ∪.) c3) x) eqn:Hb.
  - right. eexists. split; [done|]. apply andb_true_iff in Hb as [Hb1 Hb2]. apply bool_decide_eq_true in Hb1. cbn in Hb1. split.
    + apply (cut_off_mono [x]); [|done]. intros y ->%elem_of_list_singleton. left.
    + exists x. rewrite F1 in Hb1. split_and!; [done..|]. cbn. by rewrite lookup_delete.
  - match goal with |- inv_loop_i _ _ _ _ ?i0 ?P0 ?L0 ?c0 = _ ∨ _ => destruct (IH i0 P0 L0 c0) as [->|(c' & -> & Hcut & a & Ha & Hda & Hn)] end; [by left|].
    right. exists c'. split; [done|]. split.
    + eapply (cut_off_trans (x :: L) _ c); [|exact Hcut|].
      * apply (cut_off_mono [x]); [|done]. intros y ->%elem_of_list_singleton. left.
      * intros y. apply pending_cut.
    + exists a. split_and!; [|done..]. cbn in Ha. destruct (decide (a = x)) as [->|Hne].
      * rewrite lookup_delete in Ha. by destruct Ha.
      * by rewrite lookup_delete_ne, F1 in Ha.
Qed.
Definition bombed (c c' : cache) : Prop := ∃ a, is_Some (artifacts c !! a) ∧ da a = true ∧ artifacts c' !! a = None.
Lemma invalidate_or dbg pr a c :
  invalidate_by_id_i da dbg pr a c = invalidate_by_id dbg pr a c ∨
  ∃ c', invalidate_by_id_i da dbg pr a c = CPanic PkUser c' ∧ cut_off [a] c c' ∧ bombed c c'.
Proof. apply inv_loop_or. Qed.
End Bombs.
