(** Lemmas behind Props26.v: the work of the calls. *)
From Verif Require Export Work InvalidateFacts FootFacts.

(** ** The counting functions do what those of System.v do *)
Lemma inv_deps_w_fst dbg P b l : ∀ c, fst (inv_deps_w dbg P b l c) = inv_deps dbg P b l c.
Proof.
  induction l as [|d l IH]; intros c; cbn [inv_deps_w inv_deps]; [done|].
  case_bool_decide; [rewrite <- IH; by destruct (inv_deps_w _ _ _ _ _)|].
  destruct (dependents c !! d) as [X|]; [|done]. destruct (dbg && _); [done|].
  rewrite <- IH. by destruct (inv_deps_w _ _ _ _ _).
Qed.
Lemma inv_loop_w_fst fuel dbg pr : ∀ i P L c, fst (inv_loop_w fuel dbg pr i P L c) = inv_loop fuel dbg pr i P L c.
Proof.
  induction fuel as [|fuel IH]; intros i P [|b L] c; cbn [inv_loop_w inv_loop]; try done.
  rewrite <- inv_deps_w_fst. destruct (inv_deps_w _ _ _ _ _) as [[c3|k c3|] k1]; cbn [fst]; try done.
  specialize (IH (S i) ({[b]} ∪ P) ((match dependents c !! b with Some set => rev (iter_order (pr (2 * i)) set) | None => [] end) ++ L)
    (set_artifacts (delete b) (set_leafs ({[b]} ∪.) c3))).
  destruct (inv_loop_w _ _ _ _ _ _ _) as [r k]. cbn [fst] in *. rewrite IH. by destruct (dependents c !! b).
Qed.
Lemma invalidate_w_fst dbg pr a c : fst (invalidate_by_id_w dbg pr a c) = invalidate_by_id dbg pr a c.
Proof. unfold invalidate_by_id_w, invalidate_by_id. rewrite <- inv_loop_w_fst. by destruct (inv_loop_w _ _ _ _ _ _ _). Qed.
Lemma inv_each_w_fst dbg pr l : ∀ i c, fst (inv_each_w dbg pr i l c) = inv_each dbg pr i l c.
Proof.
  induction l as [|d l IH]; intros i c; cbn [inv_each_w inv_each]; [done|].
  rewrite <- invalidate_w_fst. destruct (invalidate_by_id_w _ _ _ _) as [[c'| |] k1]; cbn [fst]; try done.
  rewrite <- IH. by destruct (inv_each_w _ _ _ _ _).
Qed.
Lemma inv_dependents_w_fst dbg pr a c : fst (invalidate_dependents_w dbg pr a c) = invalidate_dependents dbg pr a c.
Proof.
  unfold invalidate_dependents_w, invalidate_dependents. destruct (dependents c !! a); [|done].
  rewrite <- inv_each_w_fst. by destruct (inv_each_w _ _ _ _ _).
Qed.
Lemma lookup_mut_w_fst dbg pr a t c : fst (lookup_mut_w dbg pr a t c) = lookup_mut dbg pr a t c.
Proof.
  unfold lookup_mut_w, lookup_mut. rewrite <- inv_dependents_w_fst. by destruct (invalidate_dependents_w _ _ _ _) as [[c'| |] k].
Qed.
Lemma purge_w_fst dbg pr a c : fst (purge_w dbg pr a c) = purge dbg pr a c.
Proof. unfold purge_w, purge. rewrite <- invalidate_w_fst. by destruct (invalidate_by_id_w _ _ _ _). Qed.
Lemma gc_loop_w_fst dbg pr l : ∀ i c, fst (gc_loop_w dbg pr i l c) = gc_loop dbg pr i l c.
Proof.
  induction l as [|d l IH]; intros i c; cbn [gc_loop_w gc_loop]; [done|].
  rewrite <- invalidate_w_fst. destruct (invalidate_by_id_w _ _ _ _) as [[c'| |] k1]; cbn [fst]; try done.
  rewrite <- IH. by destruct (gc_loop_w _ _ _ _ _).
Qed.
Lemma gc_w_fst dbg pr al c : fst (garbage_collection_w dbg pr al c) = garbage_collection dbg pr al c.
Proof.
  unfold garbage_collection_w, garbage_collection. destruct (dbg && _); [done|]. destruct (forallb _ _); [|done].
  rewrite <- gc_loop_w_fst. by destruct (gc_loop_w _ _ _ _ _).
Qed.

Section WF.
Context (E : env).

Lemma get_with_w_fst bw b h o s : (∀ o s, fst (bw o s) = b o s) → fst (get_with_w E bw h o s) = get_with E b h o s.
Proof.
  intros Hb. unfold get_with_w, get_with. destruct (promise o s) as [[d a]|]; [|done]. destruct (how_legal E h); [|done].
  destruct (lookup_art _ _ _ _); try done. rewrite <- Hb. by destruct (bw o s) as [[[]| | |] k].
Qed.
Lemma resolve_with_w_fst bw b u ua h w s :
  (∀ o s, fst (bw o s) = b o s) → fst (resolve_with_w E bw u ua h w s) = resolve_with E b u ua h w s.
Proof.
  intros Hb. unfold resolve_with_w, resolve_with. destruct (promise w s) as [[d a]|]; [|done].
  destruct (track_dependency _ _ _ _ _) as [c| |]; try done. rewrite <- (get_with_w_fst bw b) by done.
  by destruct (get_with_w _ _ _ _ _) as [[]].
Qed.
Lemma exec_w_fst bw b u ua t p : (∀ o s, fst (bw o s) = b o s) → ∀ s, fst (exec_w E bw u ua t p s) = exec E b u ua t p s.
Proof.
  intros Hb. induction p as [r| |h w k IH|k IH|v p IH|k IH|v k IH|d k IH|w p IH]; intros s; cbn [exec_w exec]; try done.
  - rewrite <- (resolve_with_w_fst bw b) by done. destruct (resolve_with_w _ _ _ _ _ _ _) as [[r s'| | |] k1]; cbn [fst]; try done.
    rewrite <- IH. by destruct (exec_w _ _ _ _ _ _ _).
  - destruct (my_state _ _ _ _); [done|]. apply IH.
  - destruct (my_state _ _ _ _); [done|]. apply IH.
  - destruct (alloc E d s) as [[o s']|]; [|done]. apply IH.
  - destruct (drop_obj w s); [|done]. apply IH.
Qed.
Lemma build_w_fst n : ∀ o s, fst (build_w E n o s) = build E n o s.
Proof.
  induction n as [|n IH]; intros o s; cbn [build_w build]; [done|]. destruct (promise o s) as [[[aty sty init body] a]|]; [|done].
  destruct (_ && _); [done|]. destruct (ensure_dyn_state _ _ _ _ _) as [c2 [k|v]]; [done|].
  rewrite <- (exec_w_fst _ _ _ _ _ _ IH). by destruct (exec_w _ _ _ _ _ _ _) as [[[]| | |] k].
Qed.
Theorem step_w_step n x s : fst (step_w E n x s) = step E n x s.
Proof.
  destruct x as [d|o|h o|o f|h o|o f|o|o f|o|o|o| | | |o| ]; try done; cbn [step_w step].
  - unfold get. rewrite <- (get_with_w_fst _ _ h o s (build_w_fst n)). by destruct (get_with_w _ _ _ _ _) as [[]].
  - unfold get_mut_w, op_get_mut. destruct (e_kind E); [done|]. destruct (promise o s) as [[d a]|]; [|done].
    rewrite <- !lookup_mut_w_fst. destruct (lookup_mut_w _ _ _ _ _) as [[[c|k c|] l] k1]; cbn [fst]; try done.
    destruct l as [k| |b]; cbn [fst]; [done|..].
    + rewrite <- build_w_fst. by destruct (build_w _ _ _ _) as [[[]| | |] k2].
    + rewrite <- !lookup_mut_w_fst. by destruct (lookup_mut_w _ _ _ _ _) as [r k2].
  - unfold lookup_mut_op_w, op_lookup_mut. destruct (e_kind E); [done|]. destruct (promise o s) as [[d a]|]; [|done].
    rewrite <- lookup_mut_w_fst. by destruct (lookup_mut_w _ _ _ _ _) as [r k2].
  - destruct (promise o s) as [[d a]|]; [|done]. rewrite <- invalidate_w_fst. by destruct (invalidate_by_id_w _ _ _ _) as [[c|k c|] k1].
  - destruct (promise o s) as [[d a]|]; [|done]. rewrite <- invalidate_w_fst. by destruct (invalidate_by_id_w _ _ _ _) as [r k1].
  - destruct (promise o s) as [[d a]|]; [|done]. rewrite <- purge_w_fst. by destruct (purge_w _ _ _ _) as [r k1].
  - rewrite <- gc_w_fst. by destruct (garbage_collection_w _ _ _ _) as [r k1].
Qed.
End WF.

(** ** Potential

    What is stored pays for being removed.  [j = 0]: dependencies only; [j = 1]: all. *)
Definition cache_of (r : cres) : option cache := match r with COk c | CPanic _ c => Some c | CFuel => None end.
Definition others (c : cache) : nat := size (artifacts c) + size (dyn_states c) + size (known c) + size (leafs c).
(** Elements, and keys [j] times. *)
Definition wt (j : nat) (m : gmap addr (gset addr)) : nat := map_fold (λ _ (X : gset addr) n, j + size X + n) 0 m.
Definition pot (j : nat) (c : cache) : nat := j * others c + 11 * wt j (dependents c) + 7 * wt j (dependencies c).

Lemma size_add {A} `{Countable A} (a : A) (X : gset A) : size ({[a]} ∪ X) ≤ S (size X).
Proof. rewrite size_union_alt, size_singleton. pose proof (subseteq_size (X ∖ {[a]}) X ltac:(set_solver)). lia. Qed.
Lemma size_sub {A} `{Countable A} (a : A) (X : gset A) : size (X ∖ {[a]}) ≤ size X.
Proof. apply subseteq_size. set_solver. Qed.

Lemma size_delete_le {A} (m : gmap addr A) a : size (delete a m) ≤ size m.
Proof. rewrite <- !size_dom, dom_delete_L. apply size_sub. Qed.

Section Pot.
Context (j : nat).
Notation wt := (wt j).
Notation pot := (pot j).

Lemma wt_delete m x X : m !! x = Some X → wt m = j + size X + wt (delete x m).
Proof.
  intros Hx. unfold WorkFacts.wt. rewrite <-(insert_delete m x X Hx) at 1.
  rewrite (map_fold_insert_L (λ (_ : addr) (X : gset addr) n, j + size X + n) 0 x X (delete x m)); [done| |apply lookup_delete].
  intros; lia.
Qed.
Lemma wt_insert m x X Y : m !! x = Some X → wt (<[x := Y]> m) + size X = wt m + size Y.
Proof.
  intros Hx. rewrite (wt_delete (<[x:=Y]> m) x Y) by apply lookup_insert.
  rewrite delete_insert_delete, (wt_delete m x X Hx). lia.
Qed.
Lemma wt_new m x Y : m !! x = None → wt (<[x := Y]> m) = j + size Y + wt m.
Proof. intros Hx. rewrite (wt_delete (<[x:=Y]> m) x Y) by apply lookup_insert. by rewrite delete_insert. Qed.
Lemma wt_delete_le m x : wt (delete x m) ≤ wt m.
Proof. destruct (m !! x) as [X|] eqn:H; [rewrite (wt_delete m x X H); lia|by rewrite delete_notin]. Qed.

Context (Hj : j ≤ 1).
Lemma inv_deps_w_bound dbg P b l : ∀ c c',
  cache_of (fst (inv_deps_w dbg P b l c)) = Some c' →
  snd (inv_deps_w dbg P b l c) ≤ 6 * length l ∧ artifacts c' = artifacts c ∧ dyn_states c' = dyn_states c ∧ known c' = known c ∧
  dependencies c' = dependencies c ∧ size (leafs c') ≤ size (leafs c) + length l ∧ wt (dependents c') ≤ wt (dependents c).
Proof.
  induction l as [|d l IH]; intros c c'; cbn [inv_deps_w length]; [intros [= ->]; cbn; split_and!; (done || lia)|].
  case_bool_decide as HP.
  { specialize (IH c c'). destruct (inv_deps_w _ _ _ _ _) as [r k]. cbn [fst snd] in *. intros H.
    destruct (IH H) as (H1 & H2 & H3 & H4 & H5 & H6 & H7). split_and!; (done || lia). }
  destruct (dependents c !! d) as [X|] eqn:HX; [|cbn; intros [= ->]; split_and!; (done || lia)].
  assert (wt (<[d:=X ∖ {[b]}]> (dependents c)) ≤ wt (dependents c)) as Hw.
  { pose proof (wt_insert _ d X (X ∖ {[b]}) HX). pose proof (size_sub b X). lia. }
  destruct (dbg && _); [cbn; intros [= <-]; cbn; split_and!; (done || lia)|].
  match goal with |- context [inv_deps_w _ _ _ _ ?c2] => specialize (IH c2 c'); set (c2' := c2) in * end.
  destruct (inv_deps_w _ _ _ _ _) as [r k]. cbn [fst snd] in *. intros H. destruct (IH H) as (H1 & H2 & H3 & H4 & H5 & H6 & H7).
  assert (artifacts c2' = artifacts c ∧ dyn_states c2' = dyn_states c ∧ known c2' = known c ∧ dependencies c2' = dependencies c ∧
    size (leafs c2') ≤ S (size (leafs c)) ∧ dependents c2' = <[d:=X ∖ {[b]}]> (dependents c)) as (G1 & G2 & G3 & G4 & G5 & G6).
  { subst c2'. case_bool_decide; cbn; split_and!; (done || (try lia)). apply size_add. }
  rewrite G6 in H7. split_and!; (lia || congruence).
Qed.

Lemma inv_loop_w_bound fuel dbg pr : ∀ i P L c c',
  cache_of (fst (inv_loop_w fuel dbg pr i P L c)) = Some c' →
  snd (inv_loop_w fuel dbg pr i P L c) + pot c' ≤ 1 + 7 * length L + pot c.
Proof.
  induction fuel as [|fuel IH]; intros i P [|b L] c c'; cbn [inv_loop_w]; try done; [intros [= ->]; cbn; lia..|].
  match goal with |- context [inv_deps_w _ ?P' _ ?l ?c2] => pose proof (inv_deps_w_bound dbg P' b l c2) as Hd; set (l' := l) in *; set (c2' := c2) in * end.
  set (new := match dependents c !! b with Some set => rev (iter_order (pr (2 * i)) set) | None => [] end).
  assert (11 * wt (dependents c2') + 11 * length new ≤ 11 * wt (dependents c)) as Hn.
  { subst new c2'. cbn. destruct (dependents c !! b) as [X|] eqn:HX; [|rewrite delete_notin by done; cbn; lia].
    rewrite rev_length, length_iter_order, (wt_delete _ b X HX). lia. }
  assert (7 * wt (dependencies c2') + 7 * length l' ≤ 7 * wt (dependencies c)) as Hl.
  { subst l' c2'. cbn. destruct (dependencies c !! b) as [X|] eqn:HX; [|rewrite delete_notin by done; cbn; lia].
    rewrite length_iter_order, (wt_delete _ b X HX). lia. }
  assert (others c2' = others c) as Ho by done. unfold WorkFacts.pot. unfold others in *.
  destruct (inv_deps_w _ _ _ _ _) as [[c3|pk c3|] k1]; cbn [fst snd cache_of] in *; [| |done].
  - destruct (Hd c3 eq_refl) as (H1 & H2 & H3 & H4 & H5 & H6 & H7).
    specialize (IH (S i) ({[b]} ∪ P) (new ++ L) (set_artifacts (delete b) (set_leafs ({[b]} ∪.) c3)) c').
    destruct (inv_loop_w _ _ _ _ _ _ _) as [r k]. cbn [fst snd] in *. intros Hc. specialize (IH Hc).
    unfold WorkFacts.pot, others in IH. rewrite app_length in IH. cbn [artifacts dyn_states known leafs dependents dependencies set_artifacts set_leafs] in IH.
    pose proof (size_add b (leafs c3)) as Hs. assert (size (delete b (artifacts c3)) ≤ size (artifacts c3)) as Ha.
    { rewrite <- !size_dom, dom_delete_L. apply size_sub. }
    rewrite H2 in Ha. rewrite H3, H4, H5 in IH. cbn [length].
    change (artifacts c2') with (artifacts c) in *. change (dyn_states c2') with (dyn_states c) in *.
    change (known c2') with (known c) in *. change (leafs c2') with (leafs c) in *.
    destruct j as [|[|]]; [lia| |lia]. rewrite H2 in IH. lia.
  - intros [= <-]. destruct (Hd c3 eq_refl) as (H1 & H2 & H3 & H4 & H5 & H6 & H7). rewrite H2, H3, H4, H5.
    change (leafs c2') with (leafs c) in *. change (artifacts c2') with (artifacts c) in *. change (dyn_states c2') with (dyn_states c) in *.
    change (known c2') with (known c) in *. cbn [length]. destruct j as [|[|]]; lia.
Qed.

Lemma invalidate_w_bound dbg pr a c c' :
  cache_of (fst (invalidate_by_id_w dbg pr a c)) = Some c' → snd (invalidate_by_id_w dbg pr a c) + pot c' ≤ 10 + pot c.
Proof.
  unfold invalidate_by_id_w. pose proof (inv_loop_w_bound (S (edge_count c)) dbg pr 0 {[a]} [a] c c') as H.
  destruct (inv_loop_w _ _ _ _ _ _ _) as [r k]. cbn [fst snd length] in *. intros Hc. specialize (H Hc). lia.
Qed.

Lemma inv_each_w_bound dbg pr l : ∀ i c c',
  cache_of (fst (inv_each_w dbg pr i l c)) = Some c' → snd (inv_each_w dbg pr i l c) + pot c' ≤ 11 * length l + pot c.
Proof.
  induction l as [|d l IH]; intros i c c'; cbn [inv_each_w]; [intros [= ->]; cbn; lia|].
  pose proof (invalidate_w_bound dbg (pr i) d c) as H. destruct (invalidate_by_id_w _ _ _ _) as [[c1|pk c1|] k1]; cbn [fst snd cache_of length] in *; [| |done].
  - specialize (IH (S i) c1 c'). destruct (inv_each_w _ _ _ _ _) as [r k]. cbn [fst snd] in *. intros Hc. specialize (IH Hc). specialize (H _ eq_refl). lia.
  - intros [= <-]. specialize (H _ eq_refl). lia.
Qed.
Lemma inv_dependents_w_bound dbg pr a c c' :
  cache_of (fst (invalidate_dependents_w dbg pr a c)) = Some c' → snd (invalidate_dependents_w dbg pr a c) + pot c' ≤ 3 + pot c.
Proof.
  unfold invalidate_dependents_w.
  assert (∀ r k c0, cache_of r = Some c0 → k + pot c0 ≤ pot c →
    cache_of (match r with COk c' => COk (set_leafs ({[a]} ∪.) c') | r => r end) = Some c' → 2 + k + pot c' ≤ 3 + pot c) as X.
  { intros r k c0 H1 H2. destruct r as [c1|pk c1|]; cbn in H1 |- *; [| |done].
    - injection H1 as ->. intros [= <-]. unfold WorkFacts.pot, others in *. cbn. pose proof (size_add a (leafs c0)). destruct j as [|[|]]; lia.
    - injection H1 as ->. intros [= <-]. lia. }
  destruct (dependents c !! a) as [Y|] eqn:HY.
  - pose proof (inv_each_w_bound dbg pr (iter_order (pr 0 0) Y) 1 (set_dependents (delete a) c)) as H.
    destruct (inv_each_w _ _ _ _ _) as [r k]. cbn [fst snd] in *. rewrite length_iter_order in H.
    destruct (cache_of r) as [c0|] eqn:Hr; [|by destruct r].
    intros Hc. apply (X r k c0); [done| |done]. specialize (H c0 eq_refl). unfold WorkFacts.pot, others in *. cbn in H.
    rewrite (wt_delete _ a Y HY) in *. lia.
  - cbn [fst snd]. intros Hc. apply (X (COk c) 0 c); [done|lia|exact Hc].
Qed.
Lemma lookup_mut_w_bound dbg pr a t c c' :
  cache_of (fst (fst (lookup_mut_w dbg pr a t c))) = Some c' → snd (lookup_mut_w dbg pr a t c) + pot c' ≤ 6 + pot c.
Proof.
  unfold lookup_mut_w. pose proof (inv_dependents_w_bound dbg pr a c) as H. destruct (invalidate_dependents_w _ _ _ _) as [[c1|pk c1|] k]; cbn [fst snd cache_of] in *; [| |done].
  - specialize (H _ eq_refl). assert (∀ l : lres, cache_of (COk c1, l).1 = Some c' → 3 + k + pot c' ≤ 6 + pot c) as X by (intros l [= <-]; lia).
    destruct (_ && _); [exact (X (LPanic PkDebug))|]. destruct (artifacts c1 !! a) as [e|]; [|exact (X LNone)]. destruct (_ =? _)%N; [exact (X (LNone))|exact (X LNone)].
  - intros [= <-]. specialize (H _ eq_refl). lia.
Qed.
Lemma purge_w_bound dbg pr a c c' :
  cache_of (fst (purge_w dbg pr a c)) = Some c' → snd (purge_w dbg pr a c) + pot c' ≤ 13 + pot c.
Proof.
  unfold purge_w. match goal with |- context [invalidate_by_id_w dbg pr a ?c3] => pose proof (invalidate_w_bound dbg pr a c3 c') as H end.
  destruct (invalidate_by_id_w _ _ _ _) as [r k]. cbn [fst snd] in *. intros Hc. specialize (H Hc). unfold WorkFacts.pot, others in *. cbn in H |- *.
  pose proof (size_delete_le (artifacts c) a). pose proof (size_delete_le (dyn_states c) a). pose proof (size_delete_le (known c) a).
  destruct j as [|[|]]; lia.
Qed.
Lemma gc_loop_w_bound dbg pr l : ∀ i c c',
  cache_of (fst (gc_loop_w dbg pr i l c)) = Some c' → snd (gc_loop_w dbg pr i l c) + pot c' ≤ 14 * length l + pot c.
Proof.
  induction l as [|d l IH]; intros i c c'; cbn [gc_loop_w]; [intros [= ->]; cbn; lia|].
  pose proof (invalidate_w_bound dbg (pr i) d c) as H. destruct (invalidate_by_id_w _ _ _ _) as [[c1|pk c1|] k1]; cbn [fst snd cache_of length] in *; [| |done].
  - match goal with |- context [gc_loop_w _ _ _ _ ?c4] => specialize (IH (S i) c4 c'); assert (pot c4 ≤ pot c1) as Hp end.
    { unfold WorkFacts.pot, others. cbn. pose proof (size_delete_le (dyn_states c1) d). pose proof (size_delete_le (known c1) d). pose proof (size_sub d (leafs c1)).
      destruct j as [|[|]]; lia. }
    destruct (gc_loop_w _ _ _ _ _) as [r k]. cbn [fst snd] in *. intros Hc. specialize (IH Hc). specialize (H _ eq_refl). lia.
  - intros [= <-]. specialize (H _ eq_refl). lia.
Qed.
Lemma gc_w_bound dbg pr al c c' :
  cache_of (fst (garbage_collection_w dbg pr al c)) = Some c' →
  snd (garbage_collection_w dbg pr al c) + pot c' ≤ 17 * (size (known c) + size (leafs c)) + pot c.
Proof.
  unfold garbage_collection_w.
  assert ((if dbg then 3 * size (known c) else 0) ≤ 3 * size (known c)) as H0 by (destruct dbg; lia).
  destruct (dbg && _); [cbn [fst snd cache_of]; intros [= ->]; lia|]. destruct (forallb _ _); [|cbn [fst snd cache_of]; intros [= ->]; lia].
  match goal with |- context [gc_loop_w dbg pr 1 ?l c] => pose proof (gc_loop_w_bound dbg pr l 1 c c') as H;
    assert (length l ≤ size (leafs c)) as Hl by (rewrite <- (length_iter_order (pr 0 0) (leafs c)); apply filter_length) end.
  destruct (gc_loop_w _ _ _ _ _) as [r k]. cbn [fst snd] in *. intros Hc. specialize (H Hc). lia.
Qed.
End Pot.

(** ** Running builders *)
Lemma size_insert_le {X} (m : gmap addr X) a x : size (<[a := x]> m) ≤ S (size m).
Proof. rewrite <- !size_dom, dom_insert_L. apply size_add. Qed.
Section Grow.
Context (j : nat) (Hj : j ≤ 1).
Notation pot := (pot j).
Notation wt := (wt j).
Lemma make_known_pot a o c : pot (make_known a o c) ≤ pot c + 2.
Proof.
  unfold make_known. destruct (known c !! a); [lia|]. unfold WorkFacts.pot, others. cbn.
  pose proof (size_insert_le (known c) a o). pose proof (size_add a (leafs c)). destruct j as [|[|]]; lia.
Qed.
Lemma ensure_pot a o t init c : pot (fst (ensure_dyn_state a o t init c)) ≤ pot c + 3.
Proof.
  unfold ensure_dyn_state. pose proof (make_known_pot a o c). destruct (dyn_states _ !! a) as [d|]; [destruct (_ =? _)%N; cbn [fst]; lia|].
  destruct init as [v|]; cbn [fst]; [|lia].
  assert (pot (set_dyn_states <[a:=Dst t v]> (make_known a o c)) ≤ pot (make_known a o c) + 1); [|lia].
  unfold WorkFacts.pot, others. cbn. pose proof (size_insert_le (dyn_states (make_known a o c)) a (Dst t v)). destruct j as [|[|]]; lia.
Qed.
Lemma wt_insert_in x y m : wt (insert_in x y m) ≤ wt m + 2.
Proof.
  unfold insert_in. destruct (m !! x) as [X|] eqn:HX; cbn.
  - pose proof (wt_insert j m x X ({[y]} ∪ X) HX). pose proof (size_add y X). lia.
  - rewrite (wt_new j m x _ HX). rewrite (right_id_L ∅ (∪) {[y]}), size_singleton. lia.
Qed.
Lemma track_pot dbg ua wa w c c' : cache_of (track_dependency dbg ua wa w c) = Some c' → pot c' ≤ pot c + 38.
Proof.
  unfold track_dependency. pose proof (make_known_pot wa w c) as H. destruct (_ && _); [intros [= <-]; lia|]. intros [= <-].
  set (c1 := make_known wa w c) in *. unfold WorkFacts.pot, others in *. cbn in H |- *.
  pose proof (wt_insert_in wa ua (dependents c1)). pose proof (wt_insert_in ua wa (dependencies c1)). pose proof (size_sub wa (leafs c1)). destruct j as [|[|]]; lia.
Qed.

End Grow.

Section Runs.
Context (E : env) (i j : nat) (Hi : i ≤ 1) (Hj : j ≤ 1).
Notation pot := (pot j).

(** [K] is paid for: by [A] for each resolve, and [B]. *)
Definition A : nat := 18 + 44 * i.
Definition paid (B : nat) (s s' : st) (k : nat) : Prop := k + i * pot (ch s') + A * resolves s ≤ B + i * pot (ch s) + A * resolves s'.
Definition slack : nat := 8 + 44 * i.
Definition pays {X} (B : nat) (s : st) (x : outcome X * nat) : Prop :=
  match fst x with
  | Done _ s' => paid B s s' (snd x)
  | Panic _ s' => paid (B + slack) s s' (snd x)
  | _ => True
  end.

Lemma paid_refl B s : paid B s s 0.
Proof. unfold paid. lia. Qed.
Lemma paid_trans B1 B2 s s' s'' k1 k2 : paid B1 s s' k1 → paid B2 s' s'' k2 → paid (B1 + B2) s s'' (k1 + k2).
Proof. unfold paid. lia. Qed.
Lemma paid_more B B' s s' k k' : paid B s s' k → B ≤ B' → k' ≤ k → paid B' s s' k'.
Proof. unfold paid. lia. Qed.
Lemma paid_same B s s' k : ch s' = ch s → trace s' = trace s → k ≤ B → paid B s s' k.
Proof. intros H1 H2. unfold paid, resolves. rewrite H1, H2. lia. Qed.
Lemma paid_like B s s1 s2 k : ch s2 = ch s1 → resolves s2 = resolves s1 → paid B s s1 k → paid B s s2 k.
Proof. intros H1 H2. unfold paid. by rewrite H1, H2. Qed.
Lemma paid_pot B n s s' k : pot (ch s') ≤ pot (ch s) + n → resolves s' = resolves s → k + n * i ≤ B → paid B s s' k.
Proof. intros H1 H2 H3. unfold paid. rewrite H2. destruct i as [|[|]]; lia. Qed.

Lemma resolves_log_S u w s : resolves (log (EResolve u w) s) = S (resolves s).
Proof. done. Qed.

Definition Bb : nat := 8 + 6 * i.
Definition pays_bld (bld : obj → st → outcome bres * nat) : Prop := ∀ o s, pays Bb s (bld o s).

Lemma get_w_pays bld h o s : pays_bld bld → pays (2 + Bb) s (get_with_w E bld h o s).
Proof.
  intros Hb. unfold get_with_w. destruct (promise o s) as [[d a]|]; [|done]. destruct (how_legal E h); [|done].
  destruct (lookup_art _ _ _ _) as [pk| |b].
  - apply paid_same; [done..|]. cbn [fst snd]. unfold w_lookup, Bb, slack; lia.
  - specialize (Hb o s). destruct (bld o s) as [r k]. unfold pays in *. cbn [fst snd] in *.
    destruct r as [[e|e] s'|pk s'| |]; try done; [destruct (_ =? _)%N|..];
      unfold paid, slack, w_lookup in *; cbn [fst snd] in *; lia.
  - apply paid_same; [done..|]. cbn [fst snd]. unfold w_lookup, Bb; destruct h; lia.
Qed.
Lemma resolve_w_pays bld u ua h w s : pays_bld bld → pays 0 s (resolve_with_w E bld u ua h w s).
Proof.
  intros Hb. unfold resolve_with_w. destruct (promise w s) as [[d wa]|]; [|done].
  pose proof (track_pot j Hj (e_dbg E) ua wa w (ch s)) as Ht. destruct (track_dependency _ _ _ _ _) as [c|pk c|]; [| |done].
  - specialize (Ht c eq_refl). pose proof (get_w_pays bld h w (log (EResolve u w) (set_ch c s)) Hb) as X.
    destruct (get_with_w _ _ _ _ _) as [r k]. unfold pays in *. cbn [fst snd] in *.
    destruct r as [r s'|pk s'| |]; try done; unfold paid, w_track, w_known, A, Bb, slack in *; rewrite resolves_log_S in X;
      (change (resolves (log (EGot u w r) s')) with (resolves s') || idtac); change (resolves (set_ch c s)) with (resolves s) in X; cbn [ch log set_ch] in *;
      (destruct i as [|[|]]; lia).
  - specialize (Ht c eq_refl). unfold pays. cbn [fst snd]. apply (paid_pot _ 38); [done|done|]. unfold slack, w_track, w_known. destruct i as [|[|]]; lia.
Qed.
Lemma exec_w_pays bld u ua t p : pays_bld bld → ∀ s, pays 0 s (exec_w E bld u ua t p s).
Proof.
  intros Hb. induction p as [r| |h w k IH|k IH|v p IH|k IH|v k IH|d k IH|w p IH]; intros s; cbn [exec_w].
  - apply paid_refl.
  - apply (paid_more 0 _ _ _ 0 0); [apply paid_refl|lia..].
  - pose proof (resolve_w_pays bld u ua h w s Hb) as X. destruct (resolve_with_w _ _ _ _ _ _ _) as [[r s'|pk s'| |] k1]; try done.
    specialize (IH r s'). destruct (exec_w _ _ _ _ _ _ _) as [x k2]. unfold pays in *. cbn [fst snd] in *.
    destruct x as [r' s''|pk s''| |]; try done; unfold paid in *; lia.
  - destruct (my_state _ _ _ _); [apply (paid_more 0 _ _ _ 0 0); [apply paid_refl|lia..]|]. apply IH.
  - unfold my_state. destruct (_ && _); [apply (paid_more 0 _ _ _ 0 0); [apply paid_refl|lia..]|].
    destruct (dyn_states (ch s) !! ua) as [d|] eqn:Hd; [|apply (paid_more 0 _ _ _ 0 0); [apply paid_refl|lia..]].
    destruct (_ =? _)%N; [|apply (paid_more 0 _ _ _ 0 0); [apply paid_refl|lia..]].
    specialize (IH (set_ch (set_dyn_states <[ua:=Dst t v]> (ch s)) s)). unfold pays in *.
    assert (pot (ch (set_ch (set_dyn_states <[ua:=Dst t v]> (ch s)) s)) = pot (ch s)) as Hp.
    { unfold WorkFacts.pot, others. cbn. rewrite <- (size_dom (<[ua:=Dst t v]> (dyn_states (ch s)))), <- (size_dom (dyn_states (ch s))), dom_insert_L.
      assert ({[ua]} ∪ dom (dyn_states (ch s)) = dom (dyn_states (ch s))) as -> by (apply subseteq_union_1_L, singleton_subseteq_l, elem_of_dom; by eexists). done. }
    destruct (exec_w _ _ _ _ _ _ _) as [x k2]. cbn [fst snd] in *. destruct x as [r' s''|pk s''| |]; try done; unfold paid in *; rewrite Hp in IH; exact IH.
  - exact (IH _ _).
  - exact (IH _ _).
  - destruct (alloc E d s) as [[o s']|] eqn:Ha; [|done]. unfold alloc in Ha. destruct (_ || _); [done|]. injection Ha as <- <-.
    exact (IH _ _).
  - unfold drop_obj. destruct (_ && _); [|done]. exact (IH _).
Qed.
Lemma build_w_pays n : pays_bld (build_w E n).
Proof.
  induction n as [|n IH]; intros o s; cbn [build_w]; [done|]. destruct (promise o s) as [[[aty sty init body] a]|]; [|done].
  destruct (_ && _); [apply paid_same; [done..|]; cbn [fst snd]; unfold w_build, w_known, w_ensure, w_known, Bb; lia|].
  pose proof (make_known_pot j Hj a o (ch s)) as H1. pose proof (ensure_pot j Hj a o sty init (make_known a o (ch s))) as H2.
  destruct (ensure_dyn_state _ _ _ _ _) as [c2 [pk|v]]; cbn [fst] in H2.
  - apply (paid_pot _ 5); [cbn; lia|done|]. cbn [fst snd]. unfold w_build, w_known, w_ensure, w_known, Bb; lia.
  - match goal with |- context [exec_w E _ _ _ _ _ ?s1] => pose proof (exec_w_pays (build_w E n) o a sty body IH s1) as X; set (s1' := s1) in * end.
    assert (pot (ch s1') ≤ pot (ch s) + 5) as Hp by (subst s1'; cbn; lia). assert (resolves s1' = resolves s) as Hr by done.
    destruct (exec_w _ _ _ _ _ _ _) as [r k]. unfold pays in *. cbn [fst snd] in *. unfold w_build, w_known, w_ensure, w_known, Bb.
    destruct r as [[b|e] s2|pk s2| |]; try done.
    + cbn [artifacts set_artifacts]. rewrite lookup_insert. unfold paid in *. cbn [ch set_stack log set_ch].
      assert (pot (set_artifacts <[a:=Art aty b]> (ch s2)) ≤ pot (ch s2) + 1) as Hq.
      { unfold WorkFacts.pot, others. cbn. pose proof (size_insert_le (artifacts (ch s2)) a (Art aty b)). destruct j as [|[|]]; lia. }
      change (resolves (set_stack (stack s) (log (EBuilt o b) (set_ch (set_artifacts <[a:=Art aty b]> (ch s2)) s2)))) with (resolves s2).
      rewrite Hr in X. destruct i as [|[|]]; lia.
    + unfold paid in *. change (resolves (set_stack (stack s) (log (EFailed o e) s2))) with (resolves s2). cbn [ch set_stack log].
      rewrite Hr in X. destruct i as [|[|]]; lia.
    + unfold paid in *. rewrite Hr in X. destruct i as [|[|]]; lia.
Qed.
End Runs.

(** ** Calls *)
Section Calls.
Context (E : env).
Notation pot := (pot 1).

Lemma write_art_pot j a f c : WorkFacts.pot j (write_art a f c) = WorkFacts.pot j c.
Proof.
  unfold WorkFacts.pot, others, write_art. cbn. rewrite <- (size_dom (alter _ _ _)), dom_alter_L, size_dom. done.
Qed.

(** The work of one call, and what it leaves to be done. *)
Lemma step_w_bound n x s s' k :
  (∃ r, step_w E n x s = (Done r s', k)) ∨ (∃ pk, step_w E n x s = (Panic pk s', k)) →
  k + pot (ch s') + 62 * resolves s ≤ 80 + 17 * scanned x s + pot (ch s) + 62 * resolves s'.
Proof.
  intros Hs.
  assert (∀ y : outcome out, (y, k) = step_w E n x s → (∃ r, y = Done r s') ∨ (∃ pk, y = Panic pk s') →
    k + pot (ch s') + 62 * resolves s ≤ 80 + 17 * scanned x s + pot (ch s) + 62 * resolves s') as X;
    [|destruct Hs as [[r Hs]|[pk Hs]]; apply (X _ (eq_sym Hs)); eauto].
  clear Hs. intros y Hs Hy. pose proof (build_w_pays E 1 1 (le_n 1) (le_n 1)) as Hb.
  assert (∀ c, ch s' = c → resolves s' = resolves s → k + pot c ≤ 80 + 17 * scanned x s + pot (ch s) →
    k + pot (ch s') + 62 * resolves s ≤ 80 + 17 * scanned x s + pot (ch s) + 62 * resolves s') as Hc by (intros c -> ->; lia).
  destruct x as [d|o|h o|o f|h o|o f|o|o f|o|o|o| | | |o| ]; cbn [step_w] in Hs.
  - injection Hs as -> ->. cbn in Hy. destruct (alloc E d s) as [[o t]|] eqn:Ha; [|by destruct Hy as [[? ?]|[? ?]]].
    destruct Hy as [[r [= _ <-]]|[? ?]]; [|done]. unfold alloc in Ha. destruct (_ || _); [done|]. injection Ha as <- <-. apply (Hc (ch s)); [done|done|lia].
  - injection Hs as -> ->. cbn in Hy. destruct (drop_obj o s) as [t|] eqn:Ha; [|by destruct Hy as [[? ?]|[? ?]]].
    destruct Hy as [[r [= _ <-]]|[? ?]]; [|done]. unfold drop_obj in Ha. destruct (_ && _); [|done]. injection Ha as <-. apply (Hc (ch s)); [done|done|lia].
  - pose proof (get_w_pays E 1 1 (le_n 1) (le_n 1) (build_w E n) h o s (Hb n)) as X. destruct (get_with_w _ _ _ _ _) as [r k'].
    injection Hs as -> ->. unfold pays, paid, A, Bb, slack in X. cbn [fst snd] in X.
    destruct r as [r t|pk t| |]; (destruct Hy as [[r' Hy]|[pk' Hy]]; [|]; try done; injection Hy as <- <-; lia).
  - unfold get_mut_w in Hs. destruct (e_kind E); [injection Hs as -> ->; by destruct Hy as [[? ?]|[? ?]]|].
    destruct (promise o s) as [[d a]|]; [|injection Hs as -> ->; by destruct Hy as [[? ?]|[? ?]]].
    pose proof (lookup_mut_w_bound 1 (le_n 1) (e_dbg E) (prio E s) a (bd_aty d) (ch s)) as H1.
    destruct (lookup_mut_w _ _ _ _ _) as [[[c|pk c|] l] k1]; cbn [fst snd cache_of] in H1.
    + specialize (H1 c eq_refl). destruct l as [pk| |b].
      * injection Hs as -> ->. destruct Hy as [[? ?]|[? [= _ <-]]]; [done|]. apply (Hc c); [done|done|lia].
      * pose proof (Hb n o (tock (set_ch c s))) as X. destruct (build_w _ _ _ _) as [r k2]. injection Hs as -> ->.
        unfold pays, paid, A, Bb, slack in X. cbn [fst snd] in X. change (resolves (tock (set_ch c s))) with (resolves s) in X.
        change (ch (tock (set_ch c s))) with c in X.
        destruct r as [[e|e] t|pk t| |]; [destruct (_ =? _)%N| | | |]; (destruct Hy as [[r' Hy]|[pk' Hy]]; try done; injection Hy; intros; subst; cbn [ch set_ch]; rewrite ?write_art_pot;
          try (change (resolves (set_ch (write_art a f (ch t)) t)) with (resolves t)); lia).
      * cbn [ch tock set_ch] in Hs. pose proof (lookup_mut_w_bound 1 (le_n 1) (e_dbg E) (prio E (tock (set_ch c s))) a (bd_aty d) c) as H2.
        destruct (lookup_mut_w _ _ _ _ _) as [[[c2|pk c2|] l] k2]; cbn [fst snd cache_of] in H2; injection Hs as -> ->.
        -- specialize (H2 c2 eq_refl). destruct l as [pk| |b2]; (destruct Hy as [[r' Hy]|[pk' Hy]]; try done; injection Hy as <- <-);
             (eapply Hc; [reflexivity|reflexivity|cbn [ch tock set_ch]; rewrite ?write_art_pot; lia]).
        -- specialize (H2 c2 eq_refl). destruct Hy as [[r' Hy]|[pk' Hy]]; [done|]. injection Hy as <- <-. apply (Hc c2); [done|done|lia].
        -- by destruct Hy as [[? ?]|[? ?]].
    + specialize (H1 c eq_refl). injection Hs as -> ->. destruct Hy as [[r' Hy]|[pk' Hy]]; [done|]. injection Hy as <- <-. apply (Hc c); [done|done|lia].
    + injection Hs as -> ->. by destruct Hy as [[? ?]|[? ?]].
  - injection Hs as -> ->. cbn [step] in Hy. destruct (promise o s) as [[d a]|]; [|by destruct Hy as [[? ?]|[? ?]]].
    destruct (how_legal E h); [|by destruct Hy as [[? ?]|[? ?]]].
    destruct (lookup_art _ _ _ _); (destruct Hy as [[r' Hy]|[pk' Hy]]; try done; injection Hy as <- <-); (apply (Hc (ch s)); [done|done|unfold w_lookup; lia]).
  - unfold lookup_mut_op_w in Hs. destruct (e_kind E); [injection Hs as -> ->; by destruct Hy as [[? ?]|[? ?]]|].
    destruct (promise o s) as [[d a]|]; [|injection Hs as -> ->; by destruct Hy as [[? ?]|[? ?]]].
    pose proof (lookup_mut_w_bound 1 (le_n 1) (e_dbg E) (prio E s) a (bd_aty d) (ch s)) as H1.
    destruct (lookup_mut_w _ _ _ _ _) as [[[c|pk c|] l] k1]; cbn [fst snd cache_of] in H1; injection Hs as -> ->.
    + specialize (H1 c eq_refl). destruct l as [pk| |b]; (destruct Hy as [[r' Hy]|[pk' Hy]]; try done; injection Hy as <- <-);
        (eapply Hc; [reflexivity|reflexivity|cbn [ch tock set_ch]; rewrite ?write_art_pot; lia]).
    + specialize (H1 c eq_refl). destruct Hy as [[r' Hy]|[pk' Hy]]; [done|]. injection Hy as <- <-. apply (Hc c); [done|done|lia].
    + by destruct Hy as [[? ?]|[? ?]].
  - injection Hs as -> ->. cbn [step] in Hy. destruct (promise o s) as [[d a]|]; [|by destruct Hy as [[? ?]|[? ?]]].
    pose proof (ensure_pot 1 (le_n 1) a o (bd_sty d) (bd_init d) (ch s)) as H1. destruct (ensure_dyn_state _ _ _ _ _) as [c [pk|v]]; cbn [fst] in H1;
      (destruct Hy as [[r' Hy]|[pk' Hy]]; try done; injection Hy as <- <-); (apply (Hc c); [done|done|unfold w_ensure, w_known; lia]).
  - destruct (promise o s) as [[d a]|]; [|injection Hs as -> ->; by destruct Hy as [[? ?]|[? ?]]].
    pose proof (invalidate_w_bound 1 (le_n 1) (e_dbg E) (prio E s 0) a (ch s)) as H1.
    destruct (invalidate_by_id_w _ _ _ _) as [[c|pk c|] k1]; cbn [fst snd cache_of] in H1; injection Hs as -> ->.
    + specialize (H1 c eq_refl). cbn [ch log tock set_ch] in Hy. pose proof (ensure_pot 1 (le_n 1) a o (bd_sty d) (bd_init d) c) as H2.
      destruct (ensure_dyn_state _ _ _ _ _) as [c' [pk|v]]; cbn [fst] in H2; (destruct Hy as [[r' Hy]|[pk' Hy]]; try done; injection Hy as <- <-).
      * apply (Hc c'); [done|done|unfold w_ensure, w_known; lia].
      * eapply Hc; [reflexivity|done|]. unfold w_ensure, w_known. cbn [ch set_ch].
        assert (pot (set_dyn_states <[a:=Dst (bd_sty d) (f v)]> c') ≤ pot c' + 1); [|lia].
        unfold WorkFacts.pot, others. cbn. pose proof (size_insert_le (dyn_states c') a (Dst (bd_sty d) (f v))). lia.
    + specialize (H1 c eq_refl). destruct Hy as [[r' Hy]|[pk' Hy]]; [done|]. injection Hy as <- <-. apply (Hc c); [done|done|lia].
    + by destruct Hy as [[? ?]|[? ?]].
  - injection Hs as -> ->. cbn [step] in Hy. destruct (promise o s) as [[d a]|]; [|by destruct Hy as [[? ?]|[? ?]]].
    destruct (get_dyn_state _ _ _ _); (destruct Hy as [[r' Hy]|[pk' Hy]]; try done; injection Hy as <- <-); (apply (Hc (ch s)); [done|done|unfold w_lookup; lia]).
  - destruct (promise o s) as [[d a]|]; [|injection Hs as -> ->; by destruct Hy as [[? ?]|[? ?]]].
    pose proof (invalidate_w_bound 1 (le_n 1) (e_dbg E) (prio E s 0) a (ch s)) as H1.
    destruct (invalidate_by_id_w _ _ _ _) as [[c|pk c|] k1]; cbn [fst snd cache_of] in H1; injection Hs as -> ->.
    + specialize (H1 c eq_refl). destruct Hy as [[r' Hy]|[pk' Hy]]; [|done]. injection Hy as <- <-. apply (Hc c); [done|done|lia].
    + specialize (H1 c eq_refl). destruct Hy as [[r' Hy]|[pk' Hy]]; [done|]. injection Hy as <- <-. apply (Hc c); [done|done|lia].
    + by destruct Hy as [[? ?]|[? ?]].
  - destruct (promise o s) as [[d a]|]; [|injection Hs as -> ->; by destruct Hy as [[? ?]|[? ?]]].
    pose proof (purge_w_bound 1 (le_n 1) (e_dbg E) (prio E s 0) a (ch s)) as H1.
    destruct (purge_w _ _ _ _) as [[c|pk c|] k1]; cbn [fst snd cache_of] in H1; injection Hs as -> ->.
    + specialize (H1 c eq_refl). destruct Hy as [[r' Hy]|[pk' Hy]]; [|done]. injection Hy as <- <-. apply (Hc c); [done|done|lia].
    + specialize (H1 c eq_refl). destruct Hy as [[r' Hy]|[pk' Hy]]; [done|]. injection Hy as <- <-. apply (Hc c); [done|done|lia].
    + by destruct Hy as [[? ?]|[? ?]].
  - injection Hs as -> ->. destruct Hy as [[r' Hy]|[pk' Hy]]; [|done]. injection Hy as <- <-. apply (Hc (clear_artifacts (ch s))); [done|done|].
    unfold WorkFacts.pot, others, scanned, clear_artifacts, weigh, wt. cbn -[Nat.mul map_fold]. rewrite !map_fold_empty, map_size_empty.
    assert (size (leafs (ch s) ∪ dom (known (ch s))) ≤ size (leafs (ch s)) + size (known (ch s))) as Hu.
    { rewrite size_union_alt, <- (size_dom (known (ch s))). apply Nat.add_le_mono_l, subseteq_size. set_solver. }
    lia.
  - injection Hs as -> ->. destruct Hy as [[r' Hy]|[pk' Hy]]; [|done]. injection Hy as <- <-. apply (Hc (clear_all (ch s))); [done|done|].
    unfold WorkFacts.pot, others, scanned, clear_all, weigh, wt. cbn -[Nat.mul map_fold]. rewrite !map_fold_empty, !map_size_empty, size_empty. lia.
  - pose proof (gc_w_bound 1 (le_n 1) (e_dbg E) (prio E s) (alive s) (ch s)) as H1. unfold scanned in *.
    destruct (garbage_collection_w _ _ _ _) as [[c|pk c|] k1]; cbn [fst snd cache_of] in H1; injection Hs as -> ->; cbn [lift] in Hy.
    + specialize (H1 c eq_refl). destruct Hy as [[r' Hy]|[pk' Hy]]; [|done]. injection Hy as <- <-. apply (Hc c); [done|done|lia].
    + specialize (H1 c eq_refl). destruct Hy as [[r' Hy]|[pk' Hy]]; [done|]. injection Hy as <- <-. apply (Hc c); [done|done|lia].
    + by destruct Hy as [[? ?]|[? ?]].
  - injection Hs as -> ->. cbn [step] in Hy. destruct (promise o s) as [[d a]|]; [|by destruct Hy as [[? ?]|[? ?]]].
    destruct Hy as [[r' Hy]|[pk' Hy]]; [|done]. injection Hy as <- <-. apply (Hc (ch s)); [done|done|lia].
  - injection Hs as -> ->. cbn [step] in Hy. destruct Hy as [[r' Hy]|[pk' Hy]]; [|done]. injection Hy as <- <-. apply (Hc (ch s)); [done|done|lia].
Qed.
End Calls.
