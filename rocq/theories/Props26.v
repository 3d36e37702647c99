(** Properties: how much work the calls are (C59).  What is counted: Work.v. *)
From Verif Require Import WorkFacts StormFacts Props1 Demo.
From stdpp Require Import relations.

(** Counting changes nothing: these are the calls of System.v, and the histories. *)
Theorem C59_same E n x s : fst (step_w E n x s) = step E n x s.
Proof. apply step_w_step. Qed.
Theorem C59_histories E l s : runs E any_op init_st l s ↔ ∃ K S, works E l K S s.
Proof.
  split.
  - induction 1 as [|l s n x r s' H (K & S & IH) _ Hs|l s n x k s' H (K & S & IH) _ Hs Hk].
    + exists 0, 0. constructor.
    + rewrite <- step_w_step in Hs. destruct (step_w E n x s) as [y k] eqn:Hw. cbn in Hs. subst y. eexists _, _. by eapply works_done.
    + rewrite <- step_w_step in Hs. destruct (step_w E n x s) as [y k'] eqn:Hw. cbn in Hs. subst y. eexists _, _. by eapply works_panic.
  - intros (K & S & H). induction H as [|l K S s n x r s' k H IH Hs|l K S s n x pk s' k H IH Hs Hk]; [constructor|..].
    + eapply runs_done; [done|done|]. rewrite <- step_w_step, Hs. done.
    + eapply runs_panic; [done|done| |done]. rewrite <- step_w_step, Hs. done.
Qed.

(** ** Single calls *)

(** Looking something up takes constant time, whatever is in the cache. *)
Theorem C59_constant E n x s :
  match x with
  | OLookup _ _ | OGetDynState _ | ODynState _ | OIsKnown _ | ONumKnown | OAlloc _ | ODrop _ => snd (step_w E n x s) ≤ 3
  | OGet h o => cached s o ≠ None → reachable E s → live s o → how_legal E h = true → snd (step_w E n x s) ≤ 4
  | _ => True
  end.
Proof.
  destruct x as [d|o|h o|o f|h o|o f|o|o f|o|o|o| | | |o| ]; try done; try (cbn; unfold w_lookup, w_ensure, w_known; lia).
  intros Hc Hr Hl Hh. apply reach_Inv in Hr as [I _]. cbn [step_w]. unfold get_with_w.
  destruct (promise o s) as [[d a]|] eqn:Hp; [|cbn; lia]. rewrite (live_cached s o d a I Hp) in Hc. rewrite Hh.
  unfold lookup_art. destruct (artifacts (ch s) !! a) as [e|]; [|done].
  destruct (_ && _); [cbn; unfold w_lookup; lia|]. destruct (_ =? _)%N; cbn; unfold w_lookup; [destruct h|]; lia.
Qed.

(** [get*]: in proportion to the number of times builders resolve something meanwhile.
    (The builders' own work is not counted.) *)
Theorem C59_get E n h o s r s' k :
  step_w E n (OGet h o) s = (Done r s', k) → k + 18 * resolves s ≤ 10 + 18 * resolves s'.
Proof.
  cbn [step_w]. pose proof (get_w_pays E 0 1 (le_0_n 1) (le_n 1) (build_w E n) h o s (build_w_pays E 0 1 (le_0_n 1) (le_n 1) n)) as X.
  destruct (get_with_w _ _ _ _ _) as [y k']. unfold pays, paid, A, Bb, slack in X. cbn [fst snd] in X.
  intros [= Hy <-]. destruct y as [r' t|pk t| |]; try done. injection Hy as _ <-. lia.
Qed.
Theorem C59_get_panics E n h o s pk s' k :
  step_w E n (OGet h o) s = (Panic pk s', k) → k + 18 * resolves s ≤ 18 + 18 * resolves s'.
Proof.
  cbn [step_w]. pose proof (get_w_pays E 0 1 (le_0_n 1) (le_n 1) (build_w E n) h o s (build_w_pays E 0 1 (le_0_n 1) (le_n 1) n)) as X.
  destruct (get_with_w _ _ _ _ _) as [y k']. unfold pays, paid, A, Bb, slack in X. cbn [fst snd] in X.
  intros [= Hy <-]. destruct y as [r' t|pk' t| |]; try done. injection Hy as _ <-. lia.
Qed.

(** The sizes of the dependency tables. *)
Lemma wt0_pairs (m : gmap addr (gset addr)) :
  ∃ P : gset (addr * addr), size P = wt 0 m ∧ ∀ a y, (a, y) ∈ P ↔ ∃ X, m !! a = Some X ∧ y ∈ X.
Proof.
  unfold wt. apply (map_fold_ind (λ r m, ∃ P : gset (addr * addr), size P = r ∧ ∀ a y, (a, y) ∈ P ↔ ∃ X, m !! a = Some X ∧ y ∈ X)).
  - exists ∅. split; [apply size_empty|]. intros a y. setoid_rewrite lookup_empty. split; [by intros ?%elem_of_empty|by intros (? & ? & _)].
  - clear m. intros b Y m r Hb (P & HP & H). set (Q := set_map (λ y, (b, y)) Y : gset (addr * addr)). exists (Q ∪ P).
    assert (∀ a y, (a, y) ∈ Q ↔ a = b ∧ y ∈ Y) as HQ by (intros a y; unfold Q; rewrite elem_of_map; naive_solver).
    split.
    + rewrite size_union, HP.
      * assert (size Q = size Y) as ->; [|lia]. apply Nat.le_antisymm.
        -- apply (size_le_inj snd); [intros [a y] [_ Hq]%HQ; exact Hq|]. intros [a y] [a' y'] [-> _]%HQ [-> _]%HQ. cbn. by intros ->.
        -- apply (size_le_inj (λ y, (b, y))); [intros y Hy; by apply HQ|by intros ? ? _ _ [=]].
      * intros [a y] [-> _]%HQ (X & HX & _)%H. congruence.
    + intros a y. rewrite elem_of_union, HQ, H. destruct (decide (a = b)) as [->|Hne].
      * rewrite lookup_insert, Hb. naive_solver.
      * rewrite lookup_insert_ne by done. naive_solver.
Qed.
Lemma deps_wt s D : Inv s → all_deps s D → wt 0 (dependents (ch s)) = size D ∧ wt 0 (dependencies (ch s)) = size D.
Proof.
  intros I HD. set (ob := λ a, default 0%N (known (ch s) !! a)). set (ad := λ o, match objs s !! o with Some (_, a) => a | None => 0%N end).
  assert (∀ u w, depends s u w → dep_rel (ch s) (ad w) (ad u) ∧ known (ch s) !! ad u = Some u ∧ known (ch s) !! ad w = Some w) as Hdep.
  { intros u w (du & ua & dw & wa & X & Hu & Hku & Hw & Hkw & HX & Hin). unfold at_addr in Hu, Hw. unfold ad, dep_rel. by rewrite Hu, Hw, HX. }
  assert (∀ m (fl : bool), (∀ x y, (∃ X, m !! x = Some X ∧ y ∈ X) ↔ if fl then dep_rel (ch s) y x else dep_rel (ch s) x y) → wt 0 m = size D) as X.
  { intros m fl Hm. destruct (wt0_pairs m) as (P & <- & HP). apply Nat.le_antisymm.
    - apply (size_le_inj (λ p, if fl then (ob p.1, ob p.2) else (ob p.2, ob p.1))).
      + intros [x y] Hp%HP%Hm. destruct fl; cbn; apply HD.
        * destruct (FootFacts.dep_rel_depends s y x I Hp) as (u & w & Hu & Hw & Hd). unfold ob. by rewrite Hu, Hw.
        * destruct (FootFacts.dep_rel_depends s x y I Hp) as (u & w & Hu & Hw & Hd). unfold ob. by rewrite Hu, Hw.
      + intros [x y] [x' y'] Hp%HP%Hm Hp'%HP%Hm. destruct fl; cbn; intros [= E1 E2].
        * destruct (FootFacts.dep_rel_depends s y x I Hp) as (u & w & Hu & Hw & _). destruct (FootFacts.dep_rel_depends s y' x' I Hp') as (u' & w' & Hu' & Hw' & _).
          unfold ob in E1, E2. rewrite Hu, Hu' in E1. rewrite Hw, Hw' in E2. cbn in *. subst. f_equal; by eapply known_inj.
        * destruct (FootFacts.dep_rel_depends s x y I Hp) as (u & w & Hu & Hw & _). destruct (FootFacts.dep_rel_depends s x' y' I Hp') as (u' & w' & Hu' & Hw' & _).
          unfold ob in E1, E2. rewrite Hu, Hu' in E1. rewrite Hw, Hw' in E2. cbn in *. subst. f_equal; by eapply known_inj.
    - apply (size_le_inj (λ p, if fl then (ad p.1, ad p.2) else (ad p.2, ad p.1))).
      + intros [u w] (Hd & _)%HD%Hdep. destruct fl; cbn; apply HP, Hm; exact Hd.
      + intros [u w] [u' w'] (_ & Hu & Hw)%HD%Hdep (_ & Hu' & Hw')%HD%Hdep. destruct fl; cbn; intros [= E1 E2]; congruence. }
  split.
  - apply (X _ false). intros x y. unfold dep_rel. destruct (dependents (ch s) !! x); cbn; set_solver.
  - apply (X _ true). intros x y. rewrite (sync_dep _ _ _ (ci_sync _ _ (i_c _ I))). destruct (dependencies (ch s) !! x); cbn; set_solver.
Qed.
Lemma pot0 s D : Inv s → all_deps s D → pot 0 (ch s) = 18 * size D.
Proof. intros I HD. destruct (deps_wt s D I HD) as [H1 H2]. unfold pot. rewrite H1, H2. lia. Qed.

(** Removing: in proportion to the number of dependencies the cache forgets, and not to
    what else it stores. *)
Theorem C59_forgets E n x s r s' k D D' :
  reachable E s → step_w E n x s = (Done r s', k) → all_deps s D → all_deps s' D' →
  match x with
  | OInvalidate _ | OPurge _ | ODynStateMut _ _ | OLookupMut _ _ => k + 18 * size D' ≤ 13 + 18 * size D
  | OGetMut _ _ => k + 18 * size D' + 62 * resolves s ≤ 20 + 18 * size D + 62 * resolves s'
  | OGc => k + 18 * size D' ≤ 17 * (number_of_known (ch s) + size (leafs (ch s))) + 18 * size D
  | _ => True
  end.
Proof.
  intros Hr Hs HD HD'. apply reach_Inv in Hr as [I Hst].
  assert (Inv s') as I'. { apply (step_Inv E n x s r s' I Hst). rewrite <- step_w_step, Hs. done. }
  rewrite <- (pot0 s D I HD), <- (pot0 s' D' I' HD'). clear HD HD' D D'. pose proof (Nat.le_succ_diag_r 0) as H01.
  destruct x as [d|o|h o|o f|h o|o f|o|o f|o|o|o| | | |o| ]; try done; cbn [step_w] in Hs.
  - unfold get_mut_w in Hs. destruct (e_kind E); [done|]. destruct (promise o s) as [[d a]|]; [|done].
    pose proof (lookup_mut_w_bound 0 H01 (e_dbg E) (prio E s) a (bd_aty d) (ch s)) as H1.
    destruct (lookup_mut_w _ _ _ _ _) as [[[c|pk c|] l] k1]; cbn [fst snd cache_of] in H1; try done. specialize (H1 c eq_refl). destruct l as [pk| |b]; [done|..].
    + pose proof (build_w_pays E 1 0 (le_n 1) H01 n o (tock (set_ch c s))) as X. destruct (build_w _ _ _ _) as [y k2].
      unfold pays, paid, A, Bb, slack in X. cbn [fst snd] in X. change (resolves (tock (set_ch c s))) with (resolves s) in X. change (ch (tock (set_ch c s))) with c in X.
      destruct y as [[e|e] t|pk t| |]; try done; [destruct (_ =? _)%N; [|done]|]; injection Hs as _ <- <-; cbn [ch set_ch]; rewrite ?write_art_pot;
        try (change (resolves (set_ch (write_art a f (ch t)) t)) with (resolves t)); lia.
    + cbn [ch tock set_ch] in Hs. pose proof (lookup_mut_w_bound 0 H01 (e_dbg E) (prio E (tock (set_ch c s))) a (bd_aty d) c) as H2.
      destruct (lookup_mut_w _ _ _ _ _) as [[[c2|pk c2|] l] k2]; cbn [fst snd cache_of] in H2; try done. specialize (H2 c2 eq_refl).
      destruct l as [pk| |b2]; try done. injection Hs as _ <- <-. cbn [ch tock set_ch]. rewrite write_art_pot.
      change (resolves (tock (set_ch (write_art a f c2) (tock (set_ch c s))))) with (resolves s). lia.
  - unfold lookup_mut_op_w in Hs. destruct (e_kind E); [done|]. destruct (promise o s) as [[d a]|]; [|done].
    pose proof (lookup_mut_w_bound 0 H01 (e_dbg E) (prio E s) a (bd_aty d) (ch s)) as H1.
    destruct (lookup_mut_w _ _ _ _ _) as [[[c|pk c|] l] k1]; cbn [fst snd cache_of] in H1; try done. specialize (H1 c eq_refl).
    destruct l as [pk| |b]; try done; injection Hs as _ <- <-; cbn [ch tock set_ch]; rewrite ?write_art_pot; lia.
  - destruct (promise o s) as [[d a]|]; [|done]. pose proof (invalidate_w_bound 0 H01 (e_dbg E) (prio E s 0) a (ch s)) as H1.
    destruct (invalidate_by_id_w _ _ _ _) as [[c|pk c|] k1]; cbn [fst snd cache_of] in H1; try done. specialize (H1 c eq_refl).
    cbn [ch log tock set_ch] in Hs. unfold ensure_dyn_state in Hs.
    assert (pot 0 (make_known a o c) = pot 0 c) as Hk by (unfold make_known; by destruct (known c !! a)).
    destruct (dyn_states _ !! a) as [e|]; [destruct (_ =? _)%N; [|done]|destruct (bd_init d); [|done]]; injection Hs as _ <- <-;
      cbn [ch set_ch]; unfold w_ensure, w_known; match goal with |- context [pot 0 ?c'] => change (pot 0 c') with (pot 0 (make_known a o c)) end; lia.
  - destruct (promise o s) as [[d a]|]; [|done]. pose proof (invalidate_w_bound 0 H01 (e_dbg E) (prio E s 0) a (ch s)) as H1.
    destruct (invalidate_by_id_w _ _ _ _) as [[c|pk c|] k1]; cbn [fst snd cache_of] in H1; try done. specialize (H1 c eq_refl).
    injection Hs as _ <- <-. cbn [ch log tock set_ch]. lia.
  - destruct (promise o s) as [[d a]|]; [|done]. pose proof (purge_w_bound 0 H01 (e_dbg E) (prio E s 0) a (ch s)) as H1.
    destruct (purge_w _ _ _ _) as [[c|pk c|] k1]; cbn [fst snd cache_of] in H1; try done. specialize (H1 c eq_refl).
    injection Hs as _ <- <-. cbn [ch log tock set_ch]. lia.
  - pose proof (gc_w_bound 0 H01 (e_dbg E) (prio E s) (alive s) (ch s)) as H1.
    destruct (garbage_collection_w _ _ _ _) as [[c|pk c|] k1]; cbn [fst snd cache_of] in H1; try done. specialize (H1 c eq_refl).
    injection Hs as _ <- <-. cbn [ch log tock set_ch]. exact H1.
Qed.

(** For [invalidate], what is forgotten are the dependencies of the builders affected
    (C04). *)
Theorem C59_invalidate (E : env) (n : nat) (o : obj) (s : st) (r : out) (s' : st) (k : nat) (F : gset (obj * obj)) :
  reachable E s → step_w E n (OInvalidate o) s = (Done r s', k) →
  (∀ u w, (u, w) ∈ F ↔ depends s u w ∧ affected s o u) →
  k ≤ 13 + 18 * size F.
Proof.
  intros Hr Hs HF. destruct (shows_ex s) as [A HA]. destruct (shows_ex s') as [A' HA'].
  assert (all_deps s (r_deps A)) as HD by (intros u w; apply (sh_deps _ _ HA)).
  assert (all_deps s' (r_deps A')) as HD' by (intros u w; apply (sh_deps _ _ HA')).
  pose proof (C59_forgets E n (OInvalidate o) s r s' k _ _ Hr Hs HD HD') as H. cbn in H.
  assert (step E n (OInvalidate o) s = Done r s') as Hs' by (by rewrite <- step_w_step, Hs).
  assert (live s o) as Hl.
  { cbn in Hs'. destruct (promise o s) as [[d a]|] eqn:Hp; [|done]. by apply promise_Some in Hp as [? _]. }
  destruct (C04_invalidate_exact E s n o Hr Hl) as (t & Ht & _ & _ & Hd). rewrite Hs' in Ht. injection Ht as _ ->.
  assert (r_deps A = r_deps A' ∪ F) as Heq.
  { apply set_eq. intros [u w]. rewrite elem_of_union, (HD u w), (HD' u w), (Hd u w), (HF u w). split.
    - intros Hu. destruct (decide ((u, w) ∈ F)) as [Ha|Ha]; [right; by apply HF|]. rewrite (HF u w) in Ha.
      assert (¬ affected s o u) by tauto. left. split; [done|]. split; [done|].
      intros Hw. apply Ha. split; [done|]. eapply rtc_r; [exact Hw|done].
    - intros [(? & _)|(? & _)]; done. }
  assert (size (r_deps A' ∪ F) ≤ size (r_deps A') + size F) as Hz.
  { rewrite size_union_alt. apply Nat.add_le_mono_l, subseteq_size. set_solver. }
  rewrite Heq in H. lia.
Qed.

(** ** Whole histories

    All the work of all calls together: a constant for every call and for every time a
    builder resolved something, and what collecting and clearing artifacts looked at.
    So however often things are removed, it pays for having been made: invalidation
    costs nothing extra in the long run. *)
Theorem C59_total E l K S s :
  works E l K S s → K ≤ 80 * length l + 62 * resolves s + 17 * S.
Proof.
  intros H. assert (K + pot 1 (ch s) ≤ 80 * length l + 62 * resolves s + 17 * S); [|lia].
  induction H as [|l K S s n x r s' k H IH Hs|l K S s n x pk s' k H IH Hs Hk]; [done|..].
  - pose proof (step_w_bound E n x s s' k (or_introl (ex_intro _ r Hs))) as X. cbn [length]. lia.
  - pose proof (step_w_bound E n x s s' k (or_intror (ex_intro _ pk Hs))) as X. cbn [length].
    change (ch (unwound s')) with (ch s'). change (resolves (unwound s')) with (resolves s'). lia.
Qed.

(** Not vacuous: the diamond of builders.  Building it resolved four times; then [get] is
    a hit, and invalidating builder 3 forgets the two dependencies it has, invalidating
    builder 0 all four, invalidating builder 4 none. *)
Lemma works_after E n l x r h K S :
  works E h K S (after E n l) → answer_to E n l x = Some (Returned r) →
  works E ((x, Returned r) :: h) (K + snd (step_w E n x (after E n l))) (S + scanned x (after E n l)) (after E n (l ++ [x])).
Proof.
  intros H Ha. eapply (works_done _ _ _ _ _ n); [exact H|]. apply after_done in Ha. rewrite <- (step_w_step E n x) in Ha.
  destruct (step_w E n x (after E n l)) as [y k]. cbn [fst snd] in *. rewrite Ha. reflexivity.
Qed.
Lemma obj_listed s w : is_Some (objs s !! w) → In w (map fst (map_to_list (objs s))).
Proof. intros [x H]. apply elem_of_list_In, elem_of_list_fmap. exists (w, x). split; [done|]. by apply elem_of_map_to_list. Qed.
Definition returned (E : env) (x : op) (s : st) : bool := match fst (step_w E 10 x s) with Done _ _ => true | _ => false end.
Example C59_applies :
  reachable env_s s_diamond ∧ live s_diamond 3 ∧ cached s_diamond 3 ≠ None ∧
  resolves (after env_s 10 (take 5 dia_ops)) = 0 ∧ resolves s_diamond = 4 ∧
  snd (step_w env_s 10 (OGet HRef 3) (after env_s 10 (take 5 dia_ops))) = 76 ∧
  snd (step_w env_s 10 (OGet HRef 3) s_diamond) = 4 ∧
  (∀ u w : obj, (u, w) ∈ ({[(3, 1); (3, 2)]} : gset (obj * obj))%N ↔ depends s_diamond u w ∧ affected s_diamond 3 u) ∧
  (returned env_s (OInvalidate 3) s_diamond = true ∧ snd (step_w env_s 10 (OInvalidate 3) s_diamond) = 21) ∧
  (returned env_s (OInvalidate 0) s_diamond = true ∧ snd (step_w env_s 10 (OInvalidate 0) s_diamond) = 45) ∧
  (returned env_s (OInvalidate 4) s_diamond = true ∧ snd (step_w env_s 10 (OInvalidate 4) s_diamond) = 9) ∧
  (returned env_s OGc s_diamond = true ∧ snd (step_w env_s 10 OGc s_diamond) = 21) ∧
  (returned env_b (OGetMut 3 (λ v, v)) b_diamond = true ∧ snd (step_w env_b 10 (OGetMut 3 (λ v, v)) b_diamond) = 10) ∧
  (∃ l, works env_s l 86 0 s_diamond ∧ length l = 7).
Proof.
  split; [apply diamond_reachable|]. split; [by apply diamond_live|]. split; [vm_compute; discriminate|].
  do 4 (split; [vm_compute; reflexivity|]). split.
  { intros u w. assert (∀ u, affected s_diamond 3 u → u = 3%N) as Ha.
    { intros u' H. apply (closed_b_affected s_diamond [3]%N) in H; [|vm_compute; reflexivity|apply elem_of_list_here]. apply elem_of_list_singleton in H. exact H. }
    rewrite elem_of_union, !elem_of_singleton. split.
    - intros [H|H]; injection H as -> ->; (split; [apply depends_b_spec; vm_compute; reflexivity|apply rtc_refl]).
    - intros [Hd Hu]. apply Ha in Hu. subst u. assert (is_Some (objs s_diamond !! w)) as Hw.
      { destruct Hd as (? & ? & ? & ? & ? & _ & _ & Hw & _). unfold at_addr in Hw. exact (mk_is_Some _ _ Hw). }
      assert (forallb (λ w, negb (depends_b s_diamond 3 w) || (w =? 1)%N || (w =? 2)%N) (map fst (map_to_list (objs s_diamond))) = true) as Hf by (vm_compute; reflexivity).
      apply obj_listed in Hw. apply depends_b_spec in Hd.
      pose proof (proj1 (forallb_forall _ _) Hf w Hw) as Hx. cbv beta in Hx. rewrite Hd in Hx. cbn [negb orb] in Hx.
      apply orb_true_iff in Hx as [Hx|Hx]; apply N.eqb_eq in Hx; subst w; [left|right]; reflexivity. }
  do 5 (split; [split; vm_compute; reflexivity|]).
  assert (∃ l K, works env_s l K 0 s_diamond ∧ K = 86 ∧ length l = 7) as (l & K & Hw & -> & Hl); [|by exists l].
  pose proof (works_nil env_s) as H. change init_st with (after env_s 10 []) in H.
  Local Ltac next H x := eapply (works_after _ _ _ x) in H; [|vm_compute; reflexivity].
  next H (OAlloc (d_leaf (VNum 7))). next H (OAlloc (d_mid 0)). next H (OAlloc (d_mid 0)). next H (OAlloc (d_top 1 2)).
  next H (OAlloc (d_leaf (VNum 8))). next H (OGet HRef 3). next H (OGet HRef 4).
  eexists _, _. split; [exact H|]. split; [vm_compute; reflexivity|reflexivity].
Qed.

Print Assumptions C59_same.
Print Assumptions C59_histories.
Print Assumptions C59_constant.
Print Assumptions C59_get.
Print Assumptions C59_get_panics.
Print Assumptions C59_forgets.
Print Assumptions C59_invalidate.
Print Assumptions C59_total.
Print Assumptions C59_applies.
