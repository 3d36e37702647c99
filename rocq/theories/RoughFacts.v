(** Going on after any caught panic, also one that left the recorded
    dependencies in a mess.  What survives is the invariant of the cache with
    its dependency graph taken out. *)
From Verif Require Export AfterFacts CohFacts RoughSpec InterruptFacts.
From stdpp Require Import relations.

(** ** The cache without its graph *)
Definition ungraph_c (c : cache) : cache :=
  Cache (artifacts c) (dyn_states c) ∅ ∅ (dom (known c)) (known c).
Definition ungraph (s : st) : st := set_ch (ungraph_c (ch s)) s.

(** Equal up to the graph. *)
Definition simc (c1 c2 : cache) : Prop :=
  artifacts c1 = artifacts c2 ∧ dyn_states c1 = dyn_states c2 ∧ known c1 = known c2.
Record sim (s1 s2 : st) : Prop := {
  sm_c : simc (ch s1) (ch s2);
  sm_objs : objs s1 = objs s2;
  sm_alive : alive s1 = alive s2;
  sm_nobj : nobj s1 = nobj s2;
  sm_nbin : nbin s1 = nbin s2;
  sm_tick : tick s1 = tick s2;
  sm_stack : stack s1 = stack s2;
  sm_reent : reent s1 = reent s2;
  sm_trace : trace s1 = trace s2;
}.

Lemma sim_ungraph s : sim s (ungraph s).
Proof. by destruct s as [[] ? ? ? ? ? ? ? ?]. Qed.
Lemma ungraph_sim s1 s2 : sim s1 s2 → ungraph s1 = ungraph s2.
Proof.
  destruct s1 as [[] ? ? ? ? ? ? ? ?], s2 as [[] ? ? ? ? ? ? ? ?]; intros [(? & ? & ?)]; cbn in *; by simplify_eq.
Qed.

Definition simx {A} (x1 x2 : outcome A) : Prop :=
  match x1, x2 with
  | Done r1 s1, Done r2 s2 => r1 = r2 ∧ sim s1 s2
  | Panic k1 s1, Panic k2 s2 => k1 = k2 ∧ sim s1 s2
  | NoFuel, NoFuel => True
  | Illegal, Illegal => True
  | _, _ => False
  end.

Section Sim.
Context (E : env).

Ltac sims H :=
  destruct H as [(? & ? & ?) ? ? ? ? ? ? ? ?];
  repeat match goal with s : st |- _ => destruct s as [[] ? ? ? ? ? ? ? ?] end;
  cbn [ch objs alive nobj nbin tick stack reent trace artifacts dyn_states dependents dependencies leafs known] in *;
  subst.
Ltac simd := repeat split; cbn; try done.

Lemma sim_promise o s1 s2 : sim s1 s2 → promise o s1 = promise o s2.
Proof. intros H. by sims H. Qed.
Lemma simc_lookup dbg c1 c2 a t : simc c1 c2 → lookup_art dbg c1 a t = lookup_art dbg c2 a t.
Proof. intros (H1 & _ & H3). unfold lookup_art, is_known. by rewrite H1, H3. Qed.
Lemma simc_my dbg c1 c2 a t : simc c1 c2 → my_state dbg a t c1 = my_state dbg a t c2.
Proof. intros (H1 & H2 & H3). unfold my_state, is_known. by rewrite H2, H3. Qed.
Lemma simc_make_known a o c1 c2 : simc c1 c2 → simc (make_known a o c1) (make_known a o c2).
Proof.
  intros (H1 & H2 & H3). unfold make_known. rewrite H3. destruct (known c2 !! a); [done|].
  split_and!; cbn; congruence.
Qed.
Lemma simc_ensure a o t i c1 c2 : simc c1 c2 →
  ∃ c1' c2' r, ensure_dyn_state a o t i c1 = (c1', r) ∧ ensure_dyn_state a o t i c2 = (c2', r) ∧ simc c1' c2'.
Proof.
  intros H%(simc_make_known a o). unfold ensure_dyn_state.
  set (d1 := make_known a o c1) in *. set (d2 := make_known a o c2) in *.
  destruct H as (H1 & H2 & H3). rewrite H2. destruct (dyn_states d2 !! a) as [d|].
  - destruct (_ =? _)%N; eexists _, _, _; (split; [done|split; [done|]]); done.
  - destruct i as [v|]; eexists _, _, _; (split; [done|split; [done|]]); [|done].
    split_and!; cbn; congruence.
Qed.
Lemma sim_set_ch c1 c2 s1 s2 : sim s1 s2 → simc c1 c2 → sim (set_ch c1 s1) (set_ch c2 s2).
Proof. intros H Hc. split; try apply H. exact Hc. Qed.
Lemma sim_log e s1 s2 : sim s1 s2 → sim (log e s1) (log e s2).
Proof. intros H. split; try apply H. cbn. f_equal. apply H. Qed.
Lemma sim_tock s1 s2 : sim s1 s2 → sim (tock s1) (tock s2).
Proof. intros H. split; try apply H. cbn. f_equal. apply H. Qed.
Lemma sim_alloc d s1 s2 : sim s1 s2 →
  match alloc E d s1, alloc E d s2 with
  | Some (o1, s1'), Some (o2, s2') => o1 = o2 ∧ sim s1' s2'
  | None, None => True
  | _, _ => False
  end.
Proof. intros H. sims H. unfold alloc, is_known. cbn. destruct (_ || _); [done|]. simd. Qed.
Lemma sim_drop o s1 s2 : sim s1 s2 →
  match drop_obj o s1, drop_obj o s2 with
  | Some s1', Some s2' => sim s1' s2'
  | None, None => True
  | _, _ => False
  end.
Proof. intros H. sims H. unfold drop_obj. cbn. destruct (_ && _); [|done]. simd. Qed.

Section bld.
Context (b : obj → st → outcome bres) (Hb : ∀ o s1 s2, sim s1 s2 → simx (b o s1) (b o s2)).

Lemma get_with_sim h o s1 s2 : sim s1 s2 → simx (get_with E b h o s1) (get_with E b h o s2).
Proof.
  intros H. unfold get_with. rewrite (sim_promise o s1 s2 H).
  destruct (promise o s2) as [[d a]|]; [|done]. destruct (how_legal E h); [|done].
  rewrite (simc_lookup _ _ _ a (bd_aty d) (sm_c _ _ H)).
  destruct (lookup_art _ _ _ _); [done| |done].
  pose proof (Hb o s1 s2 H) as Hx.
  destruct (b o s1) as [[e|e] s1'|k s1'| |], (b o s2) as [[e2|e2] s2'|k2 s2'| |]; cbn in Hx |- *;
    try done; try (by destruct Hx).
  - destruct Hx as [[= ->] Hx]. by destruct (_ =? _)%N.
  - by destruct Hx as [[= ->] Hx].
Qed.
Lemma resolve_with_sim u ua h w s1 s2 :
  sim s1 s2 → simx (resolve_with E b u ua h w s1) (resolve_with E b u ua h w s2).
Proof.
  intros H. unfold resolve_with. rewrite (sim_promise w s1 s2 H).
  destruct (promise w s2) as [[d a]|]; [|done].
  unfold track_dependency. pose proof (simc_make_known a w _ _ (sm_c _ _ H)) as Hk.
  assert (is_known (make_known a w (ch s1)) ua = is_known (make_known a w (ch s2)) ua) as ->.
  { unfold is_known. by rewrite (proj2 (proj2 Hk)). }
  destruct (_ && _).
  - cbn. split; [done|]. by apply sim_set_ch.
  - match goal with |- simx (match get_with _ _ _ _ ?x with _ => _ end) (match get_with _ _ _ _ ?y with _ => _ end) =>
      assert (sim x y) as H' end.
    { apply sim_log, sim_set_ch; [done|]. destruct Hk as (? & ? & ?). by split_and!. }
    pose proof (get_with_sim h w _ _ H') as Hg.
    destruct (get_with E b h w _), (get_with E b h w _); cbn in Hg |- *; try done.
    destruct Hg as [-> Hg]. split; [done|]. by apply sim_log.
Qed.
Lemma exec_sim u ua t p : ∀ s1 s2, sim s1 s2 → simx (exec E b u ua t p s1) (exec E b u ua t p s2).
Proof.
  induction p as [x| |h w k IH|k IH|v p IH|k IH|v k IH|d k IH|w p IH] using prog_ind;
    intros s1 s2 H; cbn [exec]; try done.
  - pose proof (resolve_with_sim u ua h w s1 s2 H) as Hr.
    destruct (resolve_with E b u ua h w s1), (resolve_with E b u ua h w s2); cbn in Hr |- *; try done.
    destruct Hr as [-> Hr]. by apply IH.
  - rewrite (simc_my _ _ _ ua t (sm_c _ _ H)). destruct (my_state _ _ _ _); [done|by apply IH].
  - rewrite (simc_my _ _ _ ua t (sm_c _ _ H)). destruct (my_state _ _ _ _); [done|].
    apply IH. apply sim_set_ch; [done|]. destruct (sm_c _ _ H) as (H1 & H2 & H3).
    split_and!; cbn; congruence.
  - rewrite (sm_tick _ _ H). apply IH. by apply sim_tock.
  - rewrite (sm_nbin _ _ H). apply IH. sims H. simd.
  - pose proof (sim_alloc d s1 s2 H) as Ha.
    destruct (alloc E d s1) as [[o1 s1']|], (alloc E d s2) as [[o2 s2']|]; try done.
    destruct Ha as [-> Ha]. by apply IH.
  - pose proof (sim_drop w s1 s2 H) as Ha.
    destruct (drop_obj w s1), (drop_obj w s2); try done. by apply IH.
Qed.
End bld.

Lemma build_sim n : ∀ o s1 s2, sim s1 s2 → simx (build E n o s1) (build E n o s2).
Proof.
  induction n as [|n IH]; intros o s1 s2 H; cbn [build]; [done|].
  rewrite (sim_promise o s1 s2 H).
  destruct (promise o s2) as [[[aty sty init body] a]|]; [|done].
  assert (contains_artifact (ch s1) a = contains_artifact (ch s2) a) as ->.
  { unfold contains_artifact. by rewrite (proj1 (sm_c _ _ H)). }
  destruct (_ && _); [done|].
  destruct (simc_ensure a o sty init (make_known a o (ch s1)) (make_known a o (ch s2))) as (c1 & c2 & r & -> & -> & Hc).
  { apply simc_make_known, H. }
  destruct r as [k|v]; [cbn; split; [done|]; by apply sim_set_ch|].
  match goal with |- simx (match exec _ _ _ _ _ _ ?x with _ => _ end) (match exec _ _ _ _ _ _ ?y with _ => _ end) =>
      assert (sim x y) as H' end.
  { apply sim_log. split; cbn; try apply H; [done| |].
    - f_equal. apply H.
    - by rewrite (sm_reent _ _ H), (sm_stack _ _ H). }
  pose proof (exec_sim (build E n) IH o a sty body _ _ H') as He.
  destruct (exec E (build E n) o a sty body _) as [[x1|x1] t1|k1 t1| |],
    (exec E (build E n) o a sty body _) as [[x2|x2] t2|k2 t2| |]; cbn [simx] in He |- *; try done; try (by destruct He).
  - destruct He as [[= ->] He]. destruct (sm_c _ _ He) as (Ha & Hd & Hk).
    cbn. rewrite !lookup_insert. cbn. split; [done|].
    split; cbn; try apply He; try apply H.
    + split_and!; cbn; congruence.
    + f_equal. apply He.
  - destruct He as [[= ->] He]. split; [done|]. split; cbn; try apply He; try apply H. f_equal. apply He.
Qed.
Lemma get_sim n h o s1 s2 : sim s1 s2 → simx (get E n h o s1) (get E n h o s2).
Proof. apply get_with_sim, build_sim. Qed.

(** The calls that never look at the graph. *)
Definition plain_op (x : op) : Prop :=
  match x with
  | OGetMut _ _ | OLookupMut _ _ | ODynStateMut _ _ | OInvalidate _ | OPurge _ | OGc => False
  | _ => True
  end.

Lemma step_sim n x s1 s2 : plain_op x → sim s1 s2 → simx (step E n x s1) (step E n x s2).
Proof.
  intros Hx H. destruct x as [d|o|h o|o f|h o|o f|o|o f|o|o|o| | | |o| ]; try done; clear Hx; cbn [step].
  - pose proof (sim_alloc d s1 s2 H) as Ha.
    destruct (alloc E d s1) as [[o1 s1']|], (alloc E d s2) as [[o2 s2']|]; try done. by destruct Ha as [-> Ha].
  - pose proof (sim_drop o s1 s2 H) as Ha. by destruct (drop_obj o s1), (drop_obj o s2).
  - pose proof (get_sim n h o s1 s2 H) as Hg.
    destruct (get E n h o s1), (get E n h o s2); cbn in Hg |- *; try done. by destruct Hg as [-> Hg].
  - rewrite (sim_promise o s1 s2 H). destruct (promise o s2) as [[d a]|]; [|done].
    destruct (how_legal E h); [|done]. rewrite (simc_lookup _ _ _ a (bd_aty d) (sm_c _ _ H)).
    by destruct (lookup_art _ _ _ _).
  - rewrite (sim_promise o s1 s2 H). destruct (promise o s2) as [[d a]|]; [|done].
    destruct (simc_ensure a o (bd_sty d) (bd_init d) (ch s1) (ch s2)) as (c1 & c2 & r & -> & -> & Hc); [apply H|].
    destruct r as [k|v]; cbn; (split; [done|by apply sim_set_ch]).
  - rewrite (sim_promise o s1 s2 H). destruct (promise o s2) as [[d a]|]; [|done].
    destruct (sm_c _ _ H) as (H1 & H2 & H3).
    unfold get_dyn_state, is_known. rewrite H2, H3. destruct (dyn_states (ch s2) !! a); [|done].
    destruct (_ && _); [done|]. by destruct (_ =? _)%N.
  - cbn. split; [done|]. apply sim_set_ch; [done|]. destruct (sm_c _ _ H) as (H1 & H2 & H3). by split_and!.
  - cbn. split; [done|]. apply sim_log, sim_set_ch; [done|]. by split_and!.
  - rewrite (sim_promise o s1 s2 H). destruct (promise o s2) as [[d a]|]; [|done].
    cbn. split; [|done]. unfold is_known. by rewrite (proj2 (proj2 (sm_c _ _ H))).
  - cbn. split; [|done]. unfold number_of_known. by rewrite (proj2 (proj2 (sm_c _ _ H))).
Qed.
End Sim.

(** ** What the invalidating functions do, whatever the graph looks like *)

(** [c'] keeps, of each builder, everything but perhaps its artifact; or at most
    that it is known. *)
Record shr (c c' : cache) : Prop := {
  sh_art : ∀ a e, artifacts c' !! a = Some e → artifacts c !! a = Some e;
  sh_keep : ∀ a, (dyn_states c' !! a = dyn_states c !! a ∧ known c' !! a = known c !! a) ∨
    (artifacts c' !! a = None ∧ dyn_states c' !! a = None ∧ (known c' !! a = known c !! a ∨ known c' !! a = None));
}.
Lemma shr_refl c : shr c c.
Proof. split; [done|]. by left. Qed.
Lemma shr_trans c1 c2 c3 : shr c1 c2 → shr c2 c3 → shr c1 c3.
Proof.
  intros H1 H2. split.
  - intros a e H. by apply H1, H2.
  - intros a. destruct (sh_keep _ _ H2 a) as [[Hd Hk]|(Ha & Hd & Hk)].
    + destruct (sh_keep _ _ H1 a) as [[Hd1 Hk1]|(Ha1 & Hd1 & Hk1)]; [left; split; congruence|].
      right. split_and!; [|congruence|rewrite Hk; destruct Hk1; auto]. destruct (artifacts c3 !! a) as [e|] eqn:He; [|done].
      apply H2 in He. congruence.
    + right. split_and!; [done..|]. destruct Hk as [->|?]; [|by right]. destruct (sh_keep _ _ H1 a) as [[_ ?]|(_ & _ & ?)]; auto.
Qed.
(** Only artifacts are lost, and no builder gets a new set of dependents. *)
Definition loses (c c' : cache) : Prop :=
  (∀ a e, artifacts c' !! a = Some e → artifacts c !! a = Some e) ∧
  dyn_states c' = dyn_states c ∧ known c' = known c ∧
  (∀ y, dependents c !! y = None → dependents c' !! y = None).
Lemma loses_shr c c' : loses c c' → shr c c'.
Proof. intros (H1 & H2 & H3 & _). split; [done|]. intros a. left. by rewrite H2, H3. Qed.
Lemma loses_refl c : loses c c.
Proof. by split_and!. Qed.
Lemma loses_trans c1 c2 c3 : loses c1 c2 → loses c2 c3 → loses c1 c3.
Proof. intros (H1 & H2 & H3 & H4) (G1 & G2 & G3 & G4). split_and!; [auto|congruence..|auto]. Qed.

Definition internal (dbg : bool) (k : pkind) : Prop := k = PkCounterpart ∨ (k = PkDebug ∧ dbg = true).

Lemma inv_deps_internal dbg P x l : ∀ c k c', inv_deps dbg P x l c = CPanic k c' → internal dbg k.
Proof.
  induction l as [|y l IH]; intros c k c'; cbn [inv_deps]; [done|].
  destruct (bool_decide (y ∈ P)); [apply IH|].
  destruct (dependents c !! y) as [Y|]; [|intros [= <- _]; by left].
  destruct (dbg && _) eqn:Hd; [|apply IH].
  intros [= <- _]. right. by apply andb_true_iff in Hd as [-> _].
Qed.

Lemma inv_loop_loses fuel dbg pr : ∀ i P L c,
  match inv_loop fuel dbg pr i P L c with
  | COk c' => loses c c' ∧ ∀ a, a ∈ L → artifacts c' !! a = None
  | CPanic k c' => loses c c' ∧ internal dbg k
  | CFuel => True
  end.
Proof.
  induction fuel as [|fuel IH]; intros i P L c; (destruct L as [|x L]; cbn [inv_loop];
    [split; [apply loses_refl|intros a Ha; by apply elem_of_nil in Ha]|]); [done|].
  set (c2 := set_dependencies (delete x) (set_dependents (delete x) c)).
  match goal with |- match (match ?r with _ => _ end) with _ => _ end => destruct r as [c3|k c3|] eqn:Hd end; [| |done].
  - match type of Hd with inv_deps _ ?P' _ ?l _ = _ => pose proof (inv_deps_frame dbg P' x l c2) as Hf; rewrite Hd in Hf end.
    destruct Hf as (F1 & F2 & F3 & _ & F4).
    match goal with |- match inv_loop _ _ _ _ ?P' ?L' ?c' with _ => _ end =>
      specialize (IH (S i) P' L' c'); assert (loses c c') as Hl end.
    { split_and!; cbn; [|by rewrite F2|by rewrite F3|].
      - intros a e. rewrite lookup_delete_Some. rewrite F1. naive_solver.
      - intros y Hy. destruct (F4 y) as [->|(Y & HY & _)]; cbn in *.
        + by apply lookup_delete_None; right.
        + apply lookup_delete_Some in HY as [_ HY]. congruence. }
    destruct (inv_loop fuel dbg pr (S i) _ _ _) as [c'|k c'|]; [| |done].
    + destruct IH as [IH1 IH2]. split; [by eapply loses_trans|].
      intros a [->|Ha]%elem_of_cons.
      * destruct (artifacts c' !! x) as [e|] eqn:He; [|done]. apply (proj1 IH1) in He. cbn in He.
        by rewrite lookup_delete in He.
      * apply IH2. destruct (dependents c !! x); [|done]. apply elem_of_app. by right.
    + destruct IH as [IH1 IH2]. split; [by eapply loses_trans|done].
  - match type of Hd with inv_deps _ ?P' _ ?l _ = _ => pose proof (inv_deps_frame dbg P' x l c2) as Hf; rewrite Hd in Hf end.
    destruct Hf as (F1 & F2 & F3 & _ & F4). split; [|by eapply inv_deps_internal].
    split_and!; [|done|done|].
    + intros a e. by rewrite F1.
    + intros y Hy. destruct (F4 y) as [->|(Y & HY & _)]; cbn in *.
      * by apply lookup_delete_None; right.
      * apply lookup_delete_Some in HY as [_ HY]. congruence.
Qed.
Lemma invalidate_loses dbg pr a c :
  match invalidate_by_id dbg pr a c with
  | COk c' => loses c c' ∧ artifacts c' !! a = None
  | CPanic k c' => loses c c' ∧ internal dbg k
  | CFuel => False
  end.
Proof.
  pose proof (invalidate_no_fuel dbg pr a c) as Hn. revert Hn. unfold invalidate_by_id.
  pose proof (inv_loop_loses (S (edge_count c)) dbg pr 0 {[a]} [a] c) as H.
  destruct (inv_loop _ _ _ _ _ _ _); [|done..]. intros _. destruct H as [H1 H2]. split; [done|]. apply H2. left.
Qed.
Lemma inv_each_loses dbg pr l : ∀ i c,
  match inv_each dbg pr i l c with
  | COk c' => loses c c'
  | CPanic k c' => loses c c' ∧ internal dbg k
  | CFuel => False
  end.
Proof.
  induction l as [|x l IH]; intros i c; cbn [inv_each]; [apply loses_refl|].
  pose proof (invalidate_loses dbg (pr i) x c) as H. destruct (invalidate_by_id dbg (pr i) x c) as [c1|k c1|]; [|done..].
  specialize (IH (S i) c1). destruct (inv_each dbg pr (S i) l c1) as [c2|k c2|]; [| |done].
  - eapply loses_trans; [apply H|done].
  - split; [|apply IH]. eapply loses_trans; [apply H|apply IH].
Qed.
Lemma inv_dependents_loses dbg pr a c :
  match invalidate_dependents dbg pr a c with
  | COk c' => loses c c' ∧ dependents c' !! a = None
  | CPanic k c' => loses c c' ∧ internal dbg k
  | CFuel => False
  end.
Proof.
  unfold invalidate_dependents. destruct (dependents c !! a) as [X|] eqn:HX; [|by split; [split_and!|]].
  pose proof (inv_each_loses dbg pr (iter_order (pr 0 0) X) 1 (set_dependents (delete a) c)) as H.
  assert (loses c (set_dependents (delete a) c)) as H0.
  { split_and!; try done. intros y Hy. cbn. by apply lookup_delete_None; right. }
  destruct (inv_each _ _ _ _ _) as [c1|k c1|]; [| |done].
  - split.
    + pose proof (loses_trans _ _ _ H0 H) as (? & ? & ? & ?). by split_and!.
    + cbn. apply H. cbn. by rewrite lookup_delete.
  - split; [|apply H]. eapply loses_trans; [done|apply H].
Qed.
Lemma purge_shr dbg pr a c :
  match purge dbg pr a c with
  | COk c' => shr c c'
  | CPanic k c' => shr c c' ∧ internal dbg k
  | CFuel => False
  end.
Proof.
  unfold purge. set (c3 := set_dyn_states _ _).
  assert (shr c c3) as H3.
  { split; cbn.
    - intros x e. rewrite lookup_delete_Some. naive_solver.
    - intros x. destruct (decide (x = a)) as [->|Hne].
      + right. rewrite !lookup_delete. auto.
      + left. by rewrite !lookup_delete_ne. }
  pose proof (invalidate_loses dbg pr a c3) as H. destruct (invalidate_by_id dbg pr a c3) as [c1|k c1|]; [| |done].
  - eapply shr_trans; [done|]. apply loses_shr, H.
  - split; [|apply H]. eapply shr_trans; [done|]. apply loses_shr, H.
Qed.
Lemma gc_loop_shr dbg pr l : ∀ i c,
  match gc_loop dbg pr i l c with
  | COk c' => shr c c'
  | CPanic k c' => shr c c' ∧ internal dbg k
  | CFuel => False
  end.
Proof.
  induction l as [|x l IH]; intros i c; cbn [gc_loop]; [apply shr_refl|].
  pose proof (invalidate_loses dbg (pr i) x c) as H. destruct (invalidate_by_id dbg (pr i) x c) as [c1|k c1|]; [| |done].
  - match goal with |- match gc_loop _ _ _ _ ?z with _ => _ end => specialize (IH (S i) z); assert (shr c z) as Hz end.
    { destruct H as [(H1 & H2 & H3 & _) Hx]. split; cbn; [done|]. intros y. destruct (decide (y = x)) as [->|Hne].
      - right. rewrite !lookup_delete. split_and!; [|done|by right].
        destruct (artifacts c1 !! x) as [e|] eqn:He; [congruence|done].
      - left. rewrite !lookup_delete_ne by done. by rewrite H2, H3. }
    destruct (gc_loop _ _ _ _ _) as [c2|k c2|]; [| |done].
    + by eapply shr_trans.
    + split; [|apply IH]. eapply shr_trans; [done|apply IH].
  - split; [|apply H]. apply loses_shr, H.
Qed.
Lemma gc_shr dbg pr al c :
  match garbage_collection dbg pr al c with
  | COk c' => shr c c'
  | CPanic k c' => shr c c' ∧ (internal dbg k ∨ k = PkGcIndex)
  | CFuel => False
  end.
Proof.
  unfold garbage_collection. destruct (dbg && _) eqn:Hd.
  { split; [apply shr_refl|]. left. right. by apply andb_true_iff in Hd as [-> _]. }
  destruct (forallb _ _); [|split; [apply shr_refl|by right]].
  pose proof (gc_loop_shr dbg pr (filter (λ a, unreachable al c a = true) (iter_order (pr 0 0) (leafs c))) 1 c) as H.
  destruct (gc_loop _ _ _ _ _); [done| |done]. destruct H. split; [done|]. by left.
Qed.

(** ** Interrupted calls *)
Section Cut.
Context (da dd : addr → bool).
Lemma cut_off_shr L c c' : cut_off L c c' → shr c c'.
Proof.
  intros [A1 A2 A3 A4]. split.
  - intros a e He. destruct (A1 a) as [<-|[? _]]; [done|congruence].
  - intros a. left. by rewrite A2, A3.
Qed.
Lemma inv_each_or dbg pr l : ∀ i c,
  inv_each_i da dbg pr i l c = inv_each dbg pr i l c ∨ ∃ c', inv_each_i da dbg pr i l c = CPanic PkUser c' ∧ cut_off l c c'.
Proof.
  induction l as [|x l IH]; intros i c; [by left|]. cbn [inv_each_i inv_each].
  destruct (invalidate_or da dbg (pr i) x c) as [->|(c' & -> & Hc & _)].
  - pose proof (invalidate_cut dbg (pr i) x c) as Hl.
    destruct (invalidate_by_id dbg (pr i) x c) as [c1|k c1|] eqn:Hi; [|by left..].
    destruct (IH (S i) c1) as [->|(c' & -> & Hc)]; [by left|]. right. exists c'. split; [done|].
    eapply (cut_off_trans _ l); [|exact Hc|].
    + apply (cut_off_mono [x]); [|done]. intros y ->%elem_of_list_singleton. left.
    + intros y Hy. exists y. split; [by right|done].
  - right. exists c'. split; [done|]. apply (cut_off_mono [x]); [|done]. intros y ->%elem_of_list_singleton. left.
Qed.
Lemma inv_dependents_or dbg pr a c :
  invalidate_dependents_i da dbg pr a c = invalidate_dependents dbg pr a c ∨
  ∃ c', invalidate_dependents_i da dbg pr a c = CPanic PkUser c' ∧ cut_off [a] c c'.
Proof.
  unfold invalidate_dependents_i, invalidate_dependents. destruct (dependents c !! a) as [X|] eqn:HX; [|by left].
  destruct (inv_each_or dbg pr (iter_order (pr 0 0) X) 1 (set_dependents (delete a) c)) as [->|(c' & -> & Hc)]; [by left|].
  right. exists c'. split; [done|]. eapply cut_off_trans; [|exact Hc|].
  - split; [by left|done..|]. intros x y. unfold dep_rel. cbn.
    destruct (decide (x = a)) as [->|]; [by rewrite lookup_delete|by rewrite lookup_delete_ne].
  - intros x Hx. exists a. split; [left|]. apply rtc_once. unfold dep_rel. rewrite HX. cbn. unfold iter_order in Hx.
    rewrite merge_sort_Permutation in Hx. by apply elem_of_elements in Hx.
Qed.
Lemma lookup_mut_or dbg pr a t c :
  lookup_mut_i da dbg pr a t c = lookup_mut dbg pr a t c ∨
  ∃ c', lookup_mut_i da dbg pr a t c = (CPanic PkUser c', LNone) ∧ cut_off [a] c c'.
Proof.
  unfold lookup_mut_i, lookup_mut. destruct (inv_dependents_or dbg pr a c) as [->|(c' & -> & Hc)]; [by left|].
  right. eauto.
Qed.
(** [purge]: at the artifact, at the state, or in the invalidation. *)
Lemma purge_or dbg pr a c :
  purge_i da dd dbg pr a c = purge dbg pr a c ∨
  ∃ c', purge_i da dd dbg pr a c = CPanic PkUser c' ∧
    ((art_bomb da c a = true ∧ c' = set_artifacts (delete a) (set_known (delete a) c)) ∨
     (art_bomb da c a = false ∧
      cut_off [a] (set_dyn_states (delete a) (set_artifacts (delete a) (set_known (delete a) c))) c')).
Proof.
  unfold purge_i, purge. change (art_bomb da (set_known (delete a) c) a) with (art_bomb da c a).
  destruct (art_bomb da c a) eqn:Hb; [right; eauto|].
  destruct (dyn_bomb dd _ a) eqn:Hd.
  - right. eexists. split; [done|]. right. split; [done|]. apply cut_off_refl.
  - match goal with |- invalidate_by_id_i _ _ _ _ ?z = _ ∨ _ => destruct (invalidate_or da dbg pr a z) as [->|(c' & -> & Hc & _)] end; [by left|].
    right. eauto.
Qed.
Lemma purge_cut_shr a c c' :
  cut_off [a] (set_dyn_states (delete a) (set_artifacts (delete a) (set_known (delete a) c))) c' → shr c c'.
Proof.
  intros Hc%cut_off_shr. eapply shr_trans; [|exact Hc]. split; cbn.
  - intros x e. rewrite lookup_delete_Some. naive_solver.
  - intros x. destruct (decide (x = a)) as [->|Hne].
    + right. rewrite !lookup_delete. auto.
    + left. by rewrite !lookup_delete_ne.
Qed.
Lemma gc_loop_or dbg pr l : ∀ i c,
  gc_loop_i da dd dbg pr i l c = gc_loop dbg pr i l c ∨
  ∃ c', gc_loop_i da dd dbg pr i l c = CPanic PkUser c' ∧ shr c c'.
Proof.
  induction l as [|x l IH]; intros i c; [by left|]. cbn [gc_loop_i gc_loop].
  destruct (invalidate_or da dbg (pr i) x c) as [->|(c' & -> & Hc & _)]; [|right; eexists; split; [done|by eapply cut_off_shr]].
  pose proof (invalidate_loses dbg (pr i) x c) as H. destruct (invalidate_by_id dbg (pr i) x c) as [c1|k c1|]; [|by left..].
  destruct H as [(H1 & H2 & H3 & _) Hx].
  destruct (dyn_bomb dd c1 x) eqn:Hd.
  - right. eexists. split; [done|]. split; cbn; [done|]. intros y. destruct (decide (y = x)) as [->|Hne].
    + right. rewrite lookup_delete, H3. auto.
    + left. rewrite lookup_delete_ne by done. by rewrite H2, H3.
  - match goal with |- gc_loop_i _ _ _ _ ?j _ ?z = _ ∨ _ => destruct (IH j z) as [->|(c' & -> & Hs)] end; [by left|].
    right. exists c'. split; [done|]. eapply shr_trans; [|exact Hs]. split; cbn; [done|]. intros y. destruct (decide (y = x)) as [->|Hne].
    + right. rewrite !lookup_delete. auto.
    + left. rewrite !lookup_delete_ne by done. by rewrite H2, H3.
Qed.
Lemma gc_or dbg pr al c :
  garbage_collection_i da dd dbg pr al c = garbage_collection dbg pr al c ∨
  ∃ c', garbage_collection_i da dd dbg pr al c = CPanic PkUser c' ∧ shr c c'.
Proof.
  unfold garbage_collection_i, garbage_collection. destruct (dbg && _); [by left|]. destruct (forallb _ _); [|by left]. apply gc_loop_or.
Qed.
End Cut.

(** ** The invariant without the graph *)
Lemma CInv_ungraph ob c :
  CInv ob (ungraph_c c) ↔
  (∀ a, is_Some (artifacts c !! a) → is_Some (dyn_states c !! a)) ∧
  (∀ a, is_Some (dyn_states c !! a) → is_Some (known c !! a)) ∧
  (∀ a o, known c !! a = Some o → ∃ d, ob !! o = Some (d, a)) ∧
  (∀ a e o d, artifacts c !! a = Some e → known c !! a = Some o → ob !! o = Some (d, a) → ar_ty e = bd_aty d) ∧
  (∀ a e o d, dyn_states c !! a = Some e → known c !! a = Some o → ob !! o = Some (d, a) → ds_ty e = bd_sty d).
Proof.
  split.
  - intros I. split_and!; apply I.
  - intros (H1 & H2 & H3 & H4 & H5). split; cbn; try done.
    intros a Ha. split; [|intros _; by apply elem_of_dom]. intros _ y Hy.
    unfold dep_rel in Hy. cbn in Hy. rewrite lookup_empty in Hy. by apply elem_of_empty in Hy.
Qed.
Lemma shr_known c c' a o : shr c c' → known c' !! a = Some o → known c !! a = Some o.
Proof. intros Hs Hk. destruct (sh_keep _ _ Hs a) as [[_ <-]|(_ & _ & [<-|?])]; [done..|congruence]. Qed.
Lemma CInv_shr ob c c' : CInv ob (ungraph_c c) → shr c c' → CInv ob (ungraph_c c').
Proof.
  rewrite !CInv_ungraph. intros (H1 & H2 & H3 & H4 & H5) Hs. split_and!.
  - intros a [e He]. destruct (sh_keep _ _ Hs a) as [[-> _]|(? & _)]; [|congruence].
    apply H1. apply Hs in He. eauto.
  - intros a Ha. destruct (sh_keep _ _ Hs a) as [[Hd ->]|(_ & Hd & _)]; rewrite Hd in Ha; [by apply H2|].
    by destruct Ha.
  - intros a o Ha. by apply H3, (shr_known _ _ _ _ Hs).
  - intros a e o d He Ha. apply Hs in He. apply (shr_known _ _ _ _ Hs) in Ha. by eapply H4.
  - intros a e o d He Ha. apply (shr_known _ _ _ _ Hs) in Ha. destruct (sh_keep _ _ Hs a) as [[Hd Hk]|(_ & Hd & _)]; rewrite Hd in He; [|done].
    by eapply H5.
Qed.

Section Rough.
Context (E : env).
Local Notation prim := (Prims.prim E).
Local Notation prims := (rtc prim).

Record W (s : st) : Prop := { w_inv : Inv (ungraph s); w_built : all_built E s }.

Lemma all_built_ungraph s : all_built E s ↔ all_built E (ungraph s).
Proof. done. Qed.
Lemma Inv_W s : Inv s → all_built E s → W s.
Proof.
  intros I H. split; [|done]. split; cbn; try apply I.
  apply CInv_ungraph. split_and!; apply I.
Qed.
Lemma W_tock s : W s → W (tock s).
Proof. intros [H1 H2]. split; [|done]. apply (Inv_tock _ H1). Qed.
Lemma W_unwound s : W s → W (unwound s).
Proof. intros [H1 H2]. split; [|done]. apply (Inv_unwound _ H1). Qed.
Lemma all_built_log e s : (∀ o, count (is_built o) [e] = 0 ∧ count (is_call o) [e] = 0) → all_built E s → all_built E (log e s).
Proof. intros He H o b Hb. eapply (from_build_app E s (log e s) [e] o b); [done|apply He|apply He|]. by apply H. Qed.
Lemma W_log e s : (∀ o, count (is_built o) [e] = 0 ∧ count (is_call o) [e] = 0) → W s → W (log e s).
Proof. intros He [H1 H2]. split; [apply (Inv_log e _ H1)|by apply all_built_log]. Qed.
Lemma W_shr s c : W s → stack s = [] → shr (ch s) c → W (set_ch c s).
Proof.
  intros [I H] Hst Hs. split.
  - apply (Inv_set_ch (ungraph s) (ungraph_c c) I Hst).
    + eapply CInv_shr; [apply (i_c _ I)|done].
    + intros a o. cbn. intros Hk%(shr_known _ _ _ _ Hs). right. eauto.
  - intros o b Hb. eapply (from_build_app E s (set_ch c s) [] o b); [done|done|done|]. apply H.
    revert Hb. unfold cached. cbn. destruct (objs s !! o) as [[d a]|]; [|done].
    destruct (decide (known c !! a = Some o)) as [Hk|]; [|done].
    destruct (artifacts c !! a) as [e|] eqn:He; [|done]. apply Hs in He as He0.
    apply (shr_known _ _ _ _ Hs) in Hk. by rewrite decide_True, He0.
Qed.

(** The address of a live builder belongs to it. *)
Lemma W_owner s o d a o' : W s → promise o s = Some (d, a) → known (ch s) !! a = Some o' → o' = o.
Proof. intros [I _] Hp Hk. exact (Inv_known_is (ungraph s) o d a o' I Hp Hk). Qed.

Lemma W_write s a f : e_kind E = Boxed → W s → stack s = [] → W (set_ch (write_art a f (ch s)) s).
Proof.
  intros HB [I H] Hst. split.
  - apply (Inv_set_ch (ungraph s) (ungraph_c (write_art a f (ch s))) I Hst).
    + pose proof (CInv_write_art (objs s) a f (ungraph_c (ch s)) (i_c _ I)) as Hc.
      apply CInv_ungraph. split_and!; apply Hc.
    + intros x o Hk. right. eauto.
  - intros o b. unfold cached. cbn. destruct (objs s !! o) as [[d x]|] eqn:Ho; [|done].
    destruct (decide _) as [Hk|]; [|done].
    destruct (decide (x = a)) as [->|Hne].
    + rewrite lookup_alter. destruct (artifacts (ch s) !! a) as [e|] eqn:He; [|done]. cbn. intros [= <-].
      destruct (H o (ar_bin e)) as (l1 & b' & l2 & Ht & Hc & Hcc & Hp & _).
      { unfold cached. by rewrite Ho, decide_True, He. }
      exists l1, b', l2. split_and!; try done. by rewrite HB.
    + rewrite lookup_alter_ne by done. intros Hb. apply (H o b). unfold cached.
      by rewrite Ho, decide_True.
Qed.
Lemma W_dyn s o d a v : W s → stack s = [] → promise o s = Some (d, a) → known (ch s) !! a = Some o →
  W (set_ch (set_dyn_states <[a := Dst (bd_sty d) v]> (ch s)) s).
Proof.
  intros [I H] Hst Hp Hk. split; [|done].
  apply (Inv_set_ch (ungraph s) (ungraph_c (set_dyn_states <[a := Dst (bd_sty d) v]> (ch s))) I Hst).
  - apply promise_Some in Hp as [_ Ho].
    pose proof (CInv_dyn (objs s) (ungraph_c (ch s)) a o d v (i_c _ I)) as Hc.
    apply Hc; done.
  - intros x o' Hk'. right. eauto.
Qed.
Lemma W_ensure s o d a : W s → stack s = [] → promise o s = Some (d, a) →
  ∃ c r, ensure_dyn_state a o (bd_sty d) (bd_init d) (ch s) = (c, r) ∧ W (set_ch c s) ∧ known c !! a = Some o ∧
    (∀ k, r = inl k → k = PkUser).
Proof.
  intros Hw Hst Hp. destruct Hw as [I H].
  destruct (simc_ensure a o (bd_sty d) (bd_init d) (ch s) (ch (ungraph s))) as (c & c' & r & Hc & Hc' & Hsim); [done|].
  destruct (ensure_ok E o (ungraph s) d a I Hp) as (c2 & Hk2 & _ & Ha2 & _ & _ & I2 & Hm).
  assert (c2 = c') as ->.
  { rewrite Hc' in Hm. destruct (dyn_states (ch (ungraph s)) !! a), (bd_init d); destruct Hm; congruence. }
  assert (known c' !! a = Some o) as Hkn.
  { rewrite Hk2. unfold make_known. destruct (known (ch (ungraph s)) !! a) as [o'|] eqn:Hk; cbn.
    - rewrite (Inv_known_is (ungraph s) o d a o' I Hp Hk) in Hk. exact Hk.
    - by rewrite lookup_insert. }
  exists c, r. split_and!; [done| | |].
  - destruct Hsim as (S1 & S2 & S3). assert (ungraph (set_ch c s) = ungraph (set_ch c' s)) as Heq.
    { apply ungraph_sim. split; try done. }
    split.
    + rewrite Heq. assert (all_built E s) as _ by done. split; cbn; try apply I2.
      apply CInv_ungraph. split_and!; apply (i_c _ I2).
    + intros o' b Hb. eapply (from_build_app E s (set_ch c s) [] o' b); [done|done|done|]. apply H.
      revert Hb. unfold cached. cbn. destruct (objs s !! o') as [[d' a']|] eqn:Ho'; [|done].
      rewrite S1, S3, Ha2. cbn. destruct (decide (known c' !! a' = Some o')) as [Hk'|]; [|done].
      destruct (artifacts (ch s) !! a') as [e|] eqn:He; [|done].
      assert (is_Some (known (ch s) !! a')) as [o2 Hk3].
      { apply (ci_dyn_known _ _ (i_c _ I)), (ci_art_dyn _ _ (i_c _ I)). cbn. eauto. }
      assert (known c' !! a' = Some o2) as Hk4.
      { rewrite Hk2. unfold make_known. destruct (known (ch (ungraph s)) !! a) eqn:Hk; [done|]. cbn.
        rewrite lookup_insert_ne; [done|]. intros ->. cbn in Hk. congruence. }
      assert (o2 = o') as -> by congruence. by rewrite decide_True.
  - by rewrite (proj2 (proj2 Hsim)).
  - intros k ->. rewrite Hc' in Hm.
    destruct (dyn_states (ch (ungraph s)) !! a), (bd_init d); destruct Hm; congruence.
Qed.

Lemma W_ends s1 s' : sim s' s1 → Inv s1 → all_built E s1 → W s'.
Proof.
  intros Hs I H. assert (W s1) as [I1 _] by (by apply Inv_W).
  split.
  - by rewrite (ungraph_sim _ _ Hs).
  - apply all_built_ungraph. rewrite (ungraph_sim _ _ Hs). done.
Qed.

Lemma W_build n o s d a :
  W s → promise o s = Some (d, a) → artifacts (ch s) !! a = None →
  match build E n o s with
  | Done r s' => W s' ∧ stack s' = stack s ∧ (∀ e, r = BOk e → ar_ty e = bd_aty d)
  | Panic k s' => W s' ∧ k = PkUser
  | _ => True
  end.
Proof.
  intros [I H] Hp Ha. pose proof (build_sim E n o s (ungraph s) (sim_ungraph s)) as Hs.
  pose proof (build_user E n o (ungraph s) d a I Hp Ha) as [Hu Ht].
  pose proof (λ s', build_prims E n o (ungraph s) d a s' I Hp Ha) as Hpr.
  pose proof (λ r s', build_done E n o (ungraph s) d a r s' I Hp Ha) as Hd.
  destruct (build E n o s) as [r s'|k s'| |], (build E n o (ungraph s)) as [r2 s2|k2 s2| |] eqn:Hb2; cbn in Hs; try done.
  - destruct Hs as [<- Hs]. assert (prims (ungraph s) s2) as Hp2 by (apply Hpr; left; eauto).
    destruct (Hd _ _ eq_refl) as [Hst _]. split_and!.
    + apply (W_ends s2 s' Hs); [by eapply prims_Inv|].
      exact (prims_all_built E (ungraph s) s2 I Hp2 H).
    + rewrite (sm_stack _ _ Hs), Hst. done.
    + intros e ->. by eapply Ht.
  - destruct Hs as [<- Hs]. assert (prims (ungraph s) s2) as Hp2 by (apply Hpr; right; eauto).
    split; [|by eapply Hu].
    apply (W_ends s2 s' Hs); [by eapply prims_Inv|].
    exact (prims_all_built E (ungraph s) s2 I Hp2 H).
Qed.

Lemma W_lookup_mut s o d a pr :
  W s → stack s = [] → promise o s = Some (d, a) →
  match lookup_mut (e_dbg E) pr a (bd_aty d) (ch s) with
  | (COk c, LNone) => W (set_ch c s) ∧ artifacts c !! a = None
  | (COk c, LSome b) => W (set_ch c s) ∧ dependents c !! a = None ∧ ∃ e, artifacts c !! a = Some e
  | (COk c, LPanic k) => False
  | (CPanic k c, _) => W (set_ch c s) ∧ internal (e_dbg E) k
  | (CFuel, _) => False
  end.
Proof.
  intros Hw Hst Hp. unfold lookup_mut.
  pose proof (inv_dependents_loses (e_dbg E) pr a (ch s)) as Hl.
  destruct (invalidate_dependents (e_dbg E) pr a (ch s)) as [c|k c|]; [| |done].
  - pose proof (W_shr s c Hw Hst (loses_shr _ _ (proj1 Hl))) as Hw'.
    pose proof (lookup_art_ok (e_dbg E) o (ungraph (set_ch c s)) d a (w_inv _ Hw') Hp) as Hla.
    unfold lookup_art, is_known, contains_artifact in *. cbn in Hla.
    destruct (artifacts c !! a) as [e|] eqn:He.
    + rewrite (bool_decide_eq_true_2 (is_Some (Some e))) by eauto. cbn [andb].
      destruct (e_dbg E && negb _); [done|]. destruct (_ =? _)%N; [|done]. split_and!; [done|apply Hl|eauto].
    + rewrite (bool_decide_eq_false_2 (is_Some None)) by (intros [? ?]; done).
      cbn [andb]. rewrite andb_false_r. done.
  - destruct Hl as [Hl Hi]. split; [|done]. by apply W_shr; [..|apply loses_shr].
Qed.

(** The panics a call can end in. *)
Definition rough_panic (x : op) (k : pkind) : Prop :=
  k = PkUser ∨ (¬ plain_op x ∧ (internal (e_dbg E) k ∨ (x = OGc ∧ k = PkGcIndex))).

Definition W_out (x : op) (y : outcome out) : Prop :=
  match y with
  | Done _ s' => W s' ∧ stack s' = []
  | Panic k s' => W (unwound s') ∧ rough_panic x k
  | _ => True
  end.

Lemma plain_step n x s : plain_op x → W s → stack s = [] → W_out x (step E n x s).
Proof.
  intros Hx [I H] Hst.
  pose proof (step_sim E n x s (ungraph s) Hx (sim_ungraph s)) as Hs.
  pose proof (λ r s', step_Inv E n x (ungraph s) r s' I Hst) as Hi.
  pose proof (λ k s', step_panic E n x (ungraph s) k s' I Hst) as Hp.
  pose proof (λ s' G, step_all_built E n x (ungraph s) s' I Hst G H) as Hb.
  destruct (step E n x s) as [r s'|k s'| |], (step E n x (ungraph s)) as [r2 s2|k2 s2| |]; cbn in Hs; try done.
  - destruct Hs as [<- Hs]. destruct (Hi _ _ eq_refl) as [I2 Hst2]. split.
    + apply (W_ends s2 s' Hs I2). apply Hb. left. eauto.
    + rewrite (sm_stack _ _ Hs). done.
  - destruct Hs as [<- Hs]. destruct (Hp _ _ eq_refl) as [[-> I2]|[(-> & _)|((? & ? & ? & ? & [-> | ->] & _) & _)]];
      [|done..].
    split; [|by left]. apply (W_ends (unwound s2) (unwound s')); [|done|].
    + split; try apply Hs. done.
    + assert (all_built E s2) as G; [|exact G]. apply Hb. right. eauto.
Qed.

Lemma W_lift x r s :
  ¬ plain_op x → W s → stack s = [] →
  match r with
  | COk c => shr (ch s) c
  | CPanic k c => shr (ch s) c ∧ (internal (e_dbg E) k ∨ (x = OGc ∧ k = PkGcIndex))
  | CFuel => False
  end → W_out x (lift r s).
Proof.
  intros Hx Hw Hst. unfold lift. destruct r as [c|k c|]; [| |done].
  - intros Hs. split; [|done]. apply W_tock. by apply W_shr.
  - intros [Hs Hk]. split; [|right; done]. apply W_unwound, W_tock. by apply W_shr.
Qed.

Lemma step_W n x s : W s → stack s = [] → W_out x (step E n x s).
Proof.
  intros Hw Hst. destruct x as [d|o|h o|o f|h o|o f|o|o f|o|o|o| | | |o| ]; try (by apply plain_step); cbn [step].
  - unfold op_get_mut. destruct (e_kind E) eqn:HB; [done|]. destruct (promise o s) as [[d a]|] eqn:Hp; [|done].
    pose proof (W_lookup_mut s o d a (prio E s) Hw Hst Hp) as H1.
    destruct (lookup_mut (e_dbg E) (prio E s) a (bd_aty d) (ch s)) as [[c|k c|] lr]; [| |done].
    + destruct lr as [k| |b]; [done| |].
      * destruct H1 as [H1 Ha]. apply W_tock in H1.
        pose proof (W_build n o (tock (set_ch c s)) d a H1 Hp Ha) as H2.
        destruct (build E n o (tock (set_ch c s))) as [[e|e] s'|k s'| |]; [| | |done..].
        -- destruct H2 as (H2 & Hst2 & Ht). rewrite (Ht e eq_refl), N.eqb_refl.
           split; [|by rewrite <- Hst]. apply W_write; [done..|by rewrite <- Hst].
        -- split; [apply H2|]. rewrite <- Hst. apply H2.
        -- destruct H2 as [H2 ->]. split; [by apply W_unwound|by left].
      * destruct H1 as (H1 & Hn & e & He). apply W_tock in H1. set (s1 := tock (set_ch c s)) in *.
        pose proof (W_lookup_mut s1 o d a (prio E s1) H1 Hst Hp) as H2.
        unfold lookup_mut in H2 |- *. unfold invalidate_dependents in H2 |- *.
        change (ch s1) with c in *. rewrite Hn in H2 |- *.
        unfold contains_artifact in H2 |- *.
        cbn [artifacts set_leafs] in H2 |- *. rewrite He in H2 |- *.
        destruct (e_dbg E && _); [done|]. destruct (_ =? _)%N; [|done].
        split; [|done]. apply W_tock.
        apply (W_write (set_ch (set_leafs (union {[a]}) c) s1)); [done|apply H2|done].
    + destruct H1 as [H1 Hk]. split; [by apply W_unwound, W_tock|]. right. auto.
  - unfold op_lookup_mut. destruct (e_kind E) eqn:HB; [done|]. destruct (promise o s) as [[d a]|] eqn:Hp; [|done].
    pose proof (W_lookup_mut s o d a (prio E s) Hw Hst Hp) as H1.
    destruct (lookup_mut (e_dbg E) (prio E s) a (bd_aty d) (ch s)) as [[c|k c|] lr]; [| |done].
    + destruct lr as [k| |b]; [done| |].
      * split; [by apply W_tock, H1|done].
      * split; [|done]. apply W_tock. apply (W_write (set_ch c s)); [done|apply H1|done].
    + destruct H1 as [H1 Hk]. split; [by apply W_unwound, W_tock|]. right. auto.
  - destruct (promise o s) as [[d a]|] eqn:Hp; [|done].
    pose proof (invalidate_loses (e_dbg E) (prio E s 0) a (ch s)) as H1.
    destruct (invalidate_by_id (e_dbg E) (prio E s 0) a (ch s)) as [c|k c|]; [| |done].
    + set (s1 := log (EInvalidate o) (tock (set_ch c s))).
      assert (W s1) as Hw1. { apply W_log; [done|]. apply W_tock, W_shr; [done..|]. apply loses_shr, H1. }
      destruct (W_ensure s1 o d a Hw1 Hst Hp) as (c' & r & -> & Hw2 & Hk & Hu).
      destruct r as [k|v].
      * split; [by apply W_unwound|]. left. by apply Hu.
      * split; [|done]. apply (W_dyn (set_ch c' s1) o d a (f v) Hw2); done.
    + destruct H1 as [H1 Hk]. split; [|right; auto]. apply W_unwound, W_tock, W_shr; [done..|]. by apply loses_shr.
  - destruct (promise o s) as [[d a]|] eqn:Hp; [|done].
    pose proof (invalidate_loses (e_dbg E) (prio E s 0) a (ch s)) as H1.
    assert (W_out (OInvalidate o) (lift (invalidate_by_id (e_dbg E) (prio E s 0) a (ch s)) s)) as H2.
    { apply W_lift; [tauto|done..|]. destruct (invalidate_by_id _ _ _ _) as [c|k c|]; [| |done].
      - apply loses_shr, H1.
      - split; [apply loses_shr, H1|]. left. apply H1. }
    destruct (lift _ _) as [r s'|k s'| |]; try done. destruct H2 as [H2 H3]. split; [by apply W_log|done].
  - destruct (promise o s) as [[d a]|] eqn:Hp; [|done].
    pose proof (purge_shr (e_dbg E) (prio E s 0) a (ch s)) as H1.
    assert (W_out (OPurge o) (lift (purge (e_dbg E) (prio E s 0) a (ch s)) s)) as H2.
    { apply W_lift; [tauto|done..|]. destruct (purge _ _ _ _) as [c|k c|]; [done| |done].
      split; [apply H1|]. left. apply H1. }
    destruct (lift _ _) as [r s'|k s'| |]; try done. destruct H2 as [H2 H3]. split; [by apply W_log|done].
  - pose proof (gc_shr (e_dbg E) (prio E s) (alive s) (ch s)) as H1.
    apply W_lift; [tauto|done..|]. destruct (garbage_collection _ _ _ _) as [c|k c|]; [done| |done].
    split; [apply H1|]. destruct H1 as [_ [?|?]]; auto.
Qed.
(** An interrupted call: either nothing was dropped that panics, or it ends in
    the panic of the user's code, in a state as good as one can have it. *)
Lemma step_i_or da dd n x s : W s → stack s = [] → ¬ purge_of_bomb da x s →
  step_i da dd E n x s = step E n x s ∨ ∃ s', step_i da dd E n x s = Panic PkUser s' ∧ W (unwound s').
Proof.
  intros Hw Hst Hb. assert (∀ c, shr (ch s) c → W (unwound (tock (set_ch c s)))) as Hcut.
  { intros c Hc. apply W_unwound, W_tock. by apply W_shr. }
  destruct x as [d|o|h o|o f|h o|o f|o|o f|o|o|o| | | |o| ]; try (by left); cbn [step step_i].
  - unfold op_get_mut_i, op_get_mut. destruct (e_kind E); [by left|]. destruct (promise o s) as [[d a]|]; [|by left].
    destruct (lookup_mut_or da (e_dbg E) (prio E s) a (bd_aty d) (ch s)) as [->|(c' & -> & Hc)]; [by left|].
    right. eexists. split; [done|]. eapply Hcut, cut_off_shr, Hc.
  - unfold op_lookup_mut_i, op_lookup_mut. destruct (e_kind E); [by left|]. destruct (promise o s) as [[d a]|]; [|by left].
    destruct (lookup_mut_or da (e_dbg E) (prio E s) a (bd_aty d) (ch s)) as [->|(c' & -> & Hc)]; [by left|].
    right. eexists. split; [done|]. eapply Hcut, cut_off_shr, Hc.
  - destruct (promise o s) as [[d a]|]; [|by left].
    destruct (invalidate_or da (e_dbg E) (prio E s 0) a (ch s)) as [->|(c' & -> & Hc & _)]; [by left|].
    right. eexists. split; [done|]. eapply Hcut, cut_off_shr, Hc.
  - destruct (promise o s) as [[d a]|]; [|by left].
    destruct (invalidate_or da (e_dbg E) (prio E s 0) a (ch s)) as [->|(c' & -> & Hc & _)]; [by left|].
    right. eexists. split; [done|]. eapply Hcut, cut_off_shr, Hc.
  - destruct (promise o s) as [[d a]|] eqn:Hp; [|by left].
    destruct (purge_or da dd (e_dbg E) (prio E s 0) a (ch s)) as [->|(c' & -> & [[Ha _]|[_ Hc]])]; [by left| |].
    + destruct Hb. cbn. apply andb_true_iff in Ha as [[e Ha]%bool_decide_eq_true Hda].
      apply promise_Some in Hp as Ho. destruct Ho as [_ Ho]. split; [|exists d, a; split; [exact Ho|done]].
      destruct (ci_dyn_known _ _ (i_c _ (w_inv _ Hw)) a) as [o' Hk]; [apply (ci_art_dyn _ _ (i_c _ (w_inv _ Hw))); eexists; exact Ha|].
      cbn in Hk. pose proof (W_owner s o d a o' Hw Hp Hk) as ->. unfold cached. rewrite Ho, decide_True by done. rewrite Ha. eauto.
    + right. eexists. split; [done|]. eapply Hcut, purge_cut_shr, Hc.
  - destruct (gc_or da dd (e_dbg E) (prio E s) (alive s) (ch s)) as [->|(c' & -> & Hc)]; [by left|].
    right. eexists. split; [done|]. by apply Hcut.
Qed.
Lemma step_i_W da dd n x s : W s → stack s = [] → ¬ purge_of_bomb da x s → W_out x (step_i da dd E n x s).
Proof.
  intros Hw Hst Hb. destruct (step_i_or da dd n x s Hw Hst Hb) as [->|(s' & -> & H)]; [by apply step_W|].
  split; [done|by left].
Qed.
Lemma step_i_done da dd n x s r s' : W s → step_i da dd E n x s = Done r s' → step E n x s = Done r s'.
Proof.
  intros Hw. destruct x as [d|o|h o|o f|h o|o f|o|o f|o|o|o| | | |o| ]; try done; cbn [step step_i].
  - unfold op_get_mut_i, op_get_mut. destruct (e_kind E); [done|]. destruct (promise o s) as [[d a]|]; [|done].
    by destruct (lookup_mut_or da (e_dbg E) (prio E s) a (bd_aty d) (ch s)) as [->|(c' & -> & Hc)].
  - unfold op_lookup_mut_i, op_lookup_mut. destruct (e_kind E); [done|]. destruct (promise o s) as [[d a]|]; [|done].
    by destruct (lookup_mut_or da (e_dbg E) (prio E s) a (bd_aty d) (ch s)) as [->|(c' & -> & Hc)].
  - destruct (promise o s) as [[d a]|]; [|done].
    by destruct (invalidate_or da (e_dbg E) (prio E s 0) a (ch s)) as [->|(c' & -> & Hc & _)].
  - destruct (promise o s) as [[d a]|]; [|done].
    by destruct (invalidate_or da (e_dbg E) (prio E s 0) a (ch s)) as [->|(c' & -> & Hc & _)].
  - destruct (promise o s) as [[d a]|] eqn:Hp; [|done].
    by destruct (purge_or da dd (e_dbg E) (prio E s 0) a (ch s)) as [->|(c' & -> & _)].
  - by destruct (gc_or da dd (e_dbg E) (prio E s) (alive s) (ch s)) as [->|(c' & -> & Hc)].
Qed.
Lemma clear_cut_shr x c c' : clear_cut x c c' → shr c c'.
Proof.
  intros [x' m c0 _ Hm|m c0 Hm]; split; cbn.
  - intros a e He. by eapply lookup_weaken.
  - by left.
  - intros a e. by rewrite lookup_empty.
  - intros a. rewrite lookup_empty. destruct (m !! a) as [v|] eqn:Hv; [|right; auto].
    left. by rewrite (lookup_weaken _ _ _ _ Hv Hm).
Qed.
End Rough.

Section Caught.
Context (E : env).

Lemma caught_W l s : caught E l s → W E s ∧ stack s = [].
Proof.
  induction 1 as [|l s da dd n x r s' _ [IH1 IH2] Hs|l s da dd n x k s' _ [IH1 IH2] Hs Hb|l s x c _ [IH1 IH2] Hc].
  - split; [|done]. apply Inv_W; [apply Inv_init|]. intros o b Hb. done.
  - pose proof (step_W E n x s IH1 IH2) as H. rewrite (step_i_done E da dd n x s r s' IH1 Hs) in H. done.
  - pose proof (step_i_W E da dd n x s IH1 IH2 Hb) as H. rewrite Hs in H. split; [apply H|done].
  - split; [|done]. apply W_shr; [done..|]. by eapply clear_cut_shr.
Qed.
Lemma caught_reachable P l s : runs E P init_st l s → caught E l s.
Proof.
  induction 1 as [|l s n x r s' _ IH _ Hs|l s n x k s' _ IH _ Hs _]; [constructor| |].
  - apply (caught_done E l s no_bomb no_bomb n); [done|]. by rewrite step_none.
  - apply (caught_panic E l s no_bomb no_bomb n); [done|by rewrite step_none|]. intros Hb. destruct x; try done. by destruct Hb as (_ & ? & ? & _ & ?).
Qed.

Lemma plain_invalidating x : plain_op x ↔ ¬ invalidating x.
Proof. by destruct x; cbn; tauto. Qed.

Lemma caught_panics l s da dd n x k s' :
  caught E l s → step_i da dd E n x s = Panic k s' →
  k = PkUser ∨ (invalidating x ∧ (k = PkCounterpart ∨ (k = PkDebug ∧ e_dbg E = true) ∨ (x = OGc ∧ k = PkGcIndex))).
Proof.
  intros [Hw Hst]%caught_W Hs.
  assert (k = PkUser ∨ step E n x s = Panic k s') as [?|Hs']; [|by left|].
  { destruct x as [d|o|h o|o f|h o|o f|o|o f|o|o|o| | | |o| ]; try (by right);
      try (match type of Hs with step_i _ _ _ _ ?y _ = _ => destruct (step_i_or E da dd n y s Hw Hst) as [Heq|(s2 & Heq & _)]; [exact (λ H, H)|right; congruence|left; congruence] end).
    cbn [step_i step] in *. destruct (promise o s) as [[d a]|]; [|done].
    destruct (purge_or da dd (e_dbg E) (prio E s 0) a (ch s)) as [Heq|(c' & Heq & _)]; rewrite Heq in Hs; [by right|].
    cbn in Hs. left. congruence. }
  pose proof (step_W E n x s Hw Hst) as H. rewrite Hs' in H.
  destruct H as [_ [?|[Hx H]]]; [by left|]. right. rewrite plain_invalidating in Hx. split.
  - destruct x; try done; exfalso; apply Hx; cbn; tauto.
  - destruct H as [[?|?]|?]; auto.
Qed.

(** Calls that do not invalidate answer as in a cache with the same artifacts,
    states and known builders, and with the graph in order. *)
Lemma W_plain n x s r s' :
  plain_op x → step E n x s = Done r s' → ∃ s2, step E n x (ungraph s) = Done r s2 ∧ sim s' s2.
Proof.
  intros Hx Hs. pose proof (step_sim E n x s (ungraph s) Hx (sim_ungraph s)) as H. rewrite Hs in H.
  destruct (step E n x (ungraph s)); cbn in H; try done. destruct H as [-> H]. eauto.
Qed.
Lemma W_plain' n x s r s2 :
  plain_op x → step E n x (ungraph s) = Done r s2 → ∃ s', step E n x s = Done r s' ∧ sim s' s2.
Proof.
  intros Hx Hs. pose proof (step_sim E n x s (ungraph s) Hx (sim_ungraph s)) as H. rewrite Hs in H.
  destruct (step E n x s); cbn in H; try done. destruct H as [-> H]. eauto.
Qed.
Lemma sim_cached s1 s2 o : sim s1 s2 → cached s1 o = cached s2 o.
Proof. intros H. change (cached (ungraph s1) o = cached (ungraph s2) o). by rewrite (ungraph_sim _ _ H). Qed.
Lemma sim_calls s1 s2 o : sim s1 s2 → calls s1 o = calls s2 o.
Proof. intros H. unfold calls. by rewrite (sm_trace _ _ H). Qed.
Lemma sim_live s1 s2 o : sim s1 s2 → live s1 o ↔ live s2 o.
Proof. intros H. unfold live. by rewrite (sm_alive _ _ H). Qed.

(** ** Any history: only the builder objects are in order *)
Record solid (s : st) : Prop := {
  so_wf : objs_wf s;
  so_alive : ∀ o, o ∈ alive s → is_Some (objs s !! o);
  so_addr : ∀ o o' d d' a, o ∈ alive s → o' ∈ alive s →
    objs s !! o = Some (d, a) → objs s !! o' = Some (d', a) → o = o';
}.
Lemma solid_same s s' :
  objs s' = objs s → alive s' = alive s → nobj s' = nobj s → stack s' = stack s → solid s → solid s'.
Proof.
  intros H1 H2 H3 H4 [[A1 A2] A3 A4]. split; [split|..].
  - intros o x. rewrite H1, H3. apply A1.
  - rewrite H2, H4. done.
  - rewrite H1, H2. done.
  - rewrite H1, H2. done.
Qed.
Lemma prim_solid s s' : prim E s s' → solid s → solid s'.
Proof.
  intros Hp [A1 A3 A4]. split; [by eapply prim_objs_wf|..].
  - destruct Hp; try exact A3.
    + apply alloc_Some in H as (-> & -> & _). cbn. intros o Ho.
      destruct (decide (o = nobj s)) as [->|Hne]; [rewrite lookup_insert; eauto|]. rewrite lookup_insert_ne by done. apply A3. set_solver.
    + apply drop_Some in H as (_ & _ & ->). cbn. intros o Ho. apply A3. set_solver.
  - destruct Hp; try exact A4.
    + apply alloc_Some in H as (-> & -> & Hn & _). cbn. intros o o' d1 d2 a Ho Ho'.
      rewrite !lookup_insert_Some. intros [[<- [= <- <-]]|[Hne H1]] [[<- [= _]]|[Hne' H2]]; [done| | |].
      * subst. destruct (Hn o' d2); [set_solver|done].
      * subst. destruct (Hn o d1); [set_solver|done].
      * eapply A4; [| |exact H1|exact H2]; set_solver.
    + apply drop_Some in H as (_ & _ & ->). cbn. intros o o' d1 d2 a Ho Ho'. apply A4; set_solver.
Qed.
Lemma prims_solid s s' : rtc (prim E) s s' → solid s → solid s'.
Proof. induction 1; eauto using prim_solid. Qed.
Lemma solid_unwound s : solid s → solid (unwound s).
Proof. intros [[A1 _] A3 A4]. split; [split|..]; try done. intros o Ho. by apply elem_of_nil in Ho. Qed.

Definition solid_out (s : st) (x : outcome out) : Prop :=
  match x with Done _ s' => solid s' ∧ stack s' = stack s | Panic _ s' => solid s' | _ => True end.
Lemma solid_lift r s s0 : solid s → stack s = stack s0 → solid_out s0 (lift r s).
Proof. intros H Hst. destruct r; cbn; [split; [|done]|..|done]; by eapply solid_same; [..|exact H]. Qed.
Lemma solid_set c s : solid s → solid (set_ch c s).
Proof. by apply solid_same. Qed.
Lemma solid_tock s : solid s → solid (tock s).
Proof. by apply solid_same. Qed.
Lemma solid_log e s : solid s → solid (log e s).
Proof. by apply solid_same. Qed.
Lemma step_solid n x s : solid s → solid_out s (step E n x s).
Proof.
  intros H. assert (∀ c, solid (tock (set_ch c s))) as Hc by (intros c; by apply solid_tock, solid_set).
  destruct x as [d|o|h o|o f|h o|o f|o|o f|o|o|o| | | |o| ]; cbn [step].
  - destruct (alloc E d s) as [[o s']|] eqn:Ha; [|done]. split; [by eapply prim_solid; [eapply pm_alloc|]|].
    by apply alloc_Some in Ha as (_ & -> & _).
  - destruct (drop_obj o s) as [s'|] eqn:Ha; [|done]. split; [by eapply prim_solid; [eapply pm_drop|]|].
    by apply drop_Some in Ha as (_ & _ & ->).
  - destruct (get E n h o s) as [r s'|k s'| |] eqn:Hg; try done.
    + split; [|by eapply get_stack; [apply H|]].
      eapply prims_solid; [|exact H]. eapply (get_prims E n h o); [apply H|]. left; eauto.
    + cbn. eapply prims_solid; [|exact H]. eapply (get_prims E n h o); [apply H|]. right; eauto.
  - unfold op_get_mut. destruct (e_kind E); [done|]. destruct (promise o s) as [[d a]|] eqn:Hp; [|done].
    destruct (lookup_mut _ _ _ _ _) as [[c|k c|] lr] eqn:Hl; [|apply Hc|done].
    destruct lr as [k| |b]; [apply Hc| |].
    + assert (artifacts c !! a = None) as Ha.
      { revert Hl. unfold lookup_mut. destruct (invalidate_dependents _ _ _ _) as [c0|k0 c0|]; [|done..].
        destruct (_ && _); [done|]. destruct (artifacts c0 !! a) eqn:He; [by destruct (_ =? _)%N|]. by intros [= <-]. }
      destruct (build_bld_ok E n o (tock (set_ch c s)) d a Hp Ha (so_wf _ (Hc c))) as [B1 B2].
      destruct (build E n o (tock (set_ch c s))) as [[e|e] s'|k s'| |]; try done.
      * assert (solid s') as Hs' by (eapply prims_solid; [apply B1; left; eauto|apply Hc]).
        destruct (_ =? _)%N; [|exact Hs']. split; [by apply solid_set|]. cbn. by eapply B2.
      * split; [eapply prims_solid; [apply B1; left; eauto|apply Hc]|by eapply B2].
      * cbn. eapply prims_solid; [apply B1; right; eauto|apply Hc].
    + clear Hl. destruct (lookup_mut _ _ _ _ _) as [[c2|k2 c2|] lr2]; [|cbn; by apply solid_tock, solid_set, Hc|done].
      destruct lr2; cbn; [..|split; [|done]]; by apply solid_tock, solid_set, Hc.
  - destruct (promise o s) as [[d a]|]; [|done]. destruct (how_legal E h); [|done]. by destruct (lookup_art _ _ _ _).
  - unfold op_lookup_mut. destruct (e_kind E); [done|]. destruct (promise o s) as [[d a]|] eqn:Hp; [|done].
    destruct (lookup_mut _ _ _ _ _) as [[c|k c|] lr] eqn:Hl; [|apply Hc|done].
    destruct lr as [k| |b]; [apply Hc|split; [apply Hc|done]|split; [apply Hc|done]].
  - destruct (promise o s) as [[d a]|]; [|done]. destruct (ensure_dyn_state _ _ _ _ _) as [c [k|v]]; cbn; [|split; [|done]]; by apply solid_set.
  - destruct (promise o s) as [[d a]|]; [|done]. destruct (invalidate_by_id _ _ _ _) as [c|k c|]; [|apply Hc|done].
    destruct (ensure_dyn_state _ _ _ _ _) as [c2 [k|v]]; cbn; [|split; [|done]]; by apply solid_set, solid_log.
  - destruct (promise o s) as [[d a]|]; [|done]. by destruct (get_dyn_state _ _ _ _).
  - destruct (promise o s) as [[d a]|]; [|done].
    match goal with |- context [lift ?r s] => pose proof (solid_lift r s s H eq_refl) as Hr; destruct (lift r s) as [r' s'|k s'| |] end; try done.
    destruct Hr. split; [by apply solid_log|done].
  - destruct (promise o s) as [[d a]|]; [|done].
    match goal with |- context [lift ?r s] => pose proof (solid_lift r s s H eq_refl) as Hr; destruct (lift r s) as [r' s'|k s'| |] end; try done.
    destruct Hr. split; [by apply solid_log|done].
  - split; [|done]. by apply solid_set.
  - split; [|done]. by apply solid_log, solid_set.
  - by apply solid_lift.
  - by destruct (promise o s) as [[d a]|].
  - done.
Qed.
Lemma step_i_solid da dd n x s : solid s → solid_out s (step_i da dd E n x s).
Proof.
  intros H. assert (∀ c, solid (tock (set_ch c s))) as Hc by (intros c; by apply solid_tock, solid_set).
  pose proof (step_solid n x s H) as Hs.
  destruct x as [d|o|h o|o f|h o|o f|o|o f|o|o|o| | | |o| ]; try exact Hs; cbn [step step_i] in *.
  - unfold op_get_mut_i, op_get_mut in *. destruct (e_kind E); [done|]. destruct (promise o s) as [[d a]|]; [|done].
    destruct (lookup_mut_or da (e_dbg E) (prio E s) a (bd_aty d) (ch s)) as [->|(c' & -> & Hx)]; [done|apply Hc].
  - unfold op_lookup_mut_i, op_lookup_mut in *. destruct (e_kind E); [done|]. destruct (promise o s) as [[d a]|]; [|done].
    destruct (lookup_mut_or da (e_dbg E) (prio E s) a (bd_aty d) (ch s)) as [->|(c' & -> & Hx)]; [done|apply Hc].
  - destruct (promise o s) as [[d a]|]; [|done].
    destruct (invalidate_or da (e_dbg E) (prio E s 0) a (ch s)) as [->|(c' & -> & Hx)]; [done|apply Hc].
  - destruct (promise o s) as [[d a]|]; [|done].
    destruct (invalidate_or da (e_dbg E) (prio E s 0) a (ch s)) as [->|(c' & -> & Hx)]; [done|apply Hc].
  - destruct (promise o s) as [[d a]|]; [|done].
    destruct (purge_or da dd (e_dbg E) (prio E s 0) a (ch s)) as [->|(c' & -> & Hx)]; [done|apply Hc].
  - destruct (gc_or da dd (e_dbg E) (prio E s) (alive s) (ch s)) as [->|(c' & -> & Hx)]; [done|apply Hc].
Qed.
Lemma wild_solid s : wild E s → solid s ∧ stack s = [].
Proof.
  induction 1 as [|s da dd n x r s' _ [IH1 IH2] Hs|s da dd n x k s' _ [IH1 IH2] Hs|s x c _ [IH1 IH2] Hc].
  - split; [|done]. split; [split|..]; cbn.
    + intros o x. cbn. by rewrite lookup_empty.
    + intros o Ho. by apply elem_of_nil in Ho.
    + intros o Ho. by apply elem_of_empty in Ho.
    + intros o o' d d' a Ho. by apply elem_of_empty in Ho.
  - pose proof (step_i_solid da dd n x s IH1) as H. rewrite Hs in H. destruct H as [H1 H2]. split; [done|congruence].
  - pose proof (step_i_solid da dd n x s IH1) as H. rewrite Hs in H. split; [by apply solid_unwound|done].
  - split; [by apply solid_set|done].
Qed.
Lemma caught_wild l s : caught E l s → wild E s.
Proof.
  induction 1; [constructor|by eapply wild_done|by eapply wild_panic|by eapply wild_clear].
Qed.

Lemma recovered_Inv s : recovered E s → Inv s ∧ stack s = [] ∧ all_built E s ∧ (reent s = false → coh s).
Proof.
  intros (s0 & n & x & r & s1 & l & Hx & Hs & Hr).
  assert (Inv s1 ∧ stack s1 = [] ∧ ∀ w, cached s1 w = None) as (I1 & Hst1 & Hn).
  { destruct Hx as [[-> [l0 Hc]]|[-> Hc]]; cbn [step] in Hs; injection Hs as <- <-.
    - apply caught_W in Hc as [[I H] Hst]. split_and!; [|done|].
      + apply (Inv_set_ch (ungraph s0) (clear_artifacts (ch s0)) I Hst).
        * pose proof (CInv_clear_artifacts (objs s0) (ungraph_c (ch s0)) (i_c _ I)) as Hi.
          split; try apply Hi.
          cbn. intros a Ha. split; [|intros _; apply elem_of_union; right; by apply elem_of_dom].
          intros _ y Hy. unfold dep_rel in Hy. cbn in Hy. rewrite lookup_empty in Hy. by apply elem_of_empty in Hy.
        * intros a o Hk. right. eauto.
      + intros w. unfold cached. cbn. destruct (objs s0 !! w) as [[d a]|]; [|done].
        destruct (decide _); [|done]. by rewrite lookup_empty.
    - apply wild_solid in Hc as [H Hst]. split_and!; [|done|].
      + rewrite clear_all_empty. apply (Inv_log EClear). split.
        * apply CInv_empty.
        * apply H.
        * apply H.
        * intros o o' d d' a Ho Ho'. apply (so_addr _ H).
          -- destruct Ho as [Ho|[y Ho]]; [exact Ho|]. cbn in Ho. by rewrite lookup_empty in Ho.
          -- destruct Ho' as [Ho'|[y Ho']]; [exact Ho'|]. cbn in Ho'. by rewrite lookup_empty in Ho'.
        * intros o Ho. change (o ∈ stack s0) in Ho. rewrite Hst in Ho. by apply elem_of_nil in Ho.
      + intros w. unfold cached. cbn. destruct (objs s0 !! w) as [[d a]|]; [|done].
        by rewrite lookup_empty, decide_False. }
  refine (_ (runs_Inv E any_op s1 l s Hr I1 Hst1)). intros [I2 Hst2]. split_and!; [done..| |].
  - refine (runs_inv E any_op (all_built E) s1 l s I1 Hst1 _ _ Hr).
    + intros o b Hb. rewrite Hn in Hb. done.
    + intros m y t1 t2 It Ht H1 _ Hg. exact (step_all_built E m y t1 t2 It Ht Hg H1).
  - refine (runs_inv E any_op (λ x, reent x = false → coh x) s1 l s I1 Hst1 _ _ Hr).
    + intros _ u w rv l1 l2 [[b Hb]|Hu]; [by rewrite Hn in Hb|]. rewrite Hst1 in Hu. by apply elem_of_nil in Hu.
    + intros m y t1 t2 It Ht H1 _ Hg Hre. change (reent t2 = false) in Hre.
      assert (reent t1 = false) as Hr1 by (exact (goes_reent E m y t1 t2 It Ht Hg Hre)).
      exact (step_coh E m y t1 t2 It Ht Hg Hre (H1 Hr1)).
Qed.
End Caught.
