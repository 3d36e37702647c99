(** Properties: the cache is the reference cache of Reference.v (C44); debug
    assertions, iteration orders and the kind of cans make no difference (C45). *)
From Verif Require Import RefLaws Demo.
From stdpp Require Import relations.

(** ** C44 *)

(** The histories of calls and answers of the cache and of the reference cache
    are the same ... *)
Theorem C44_history E l :
  (∃ s, runs E any_op init_st l s) ↔ (∃ A, rruns (e_ask E) (e_kind E) new_ref l A).
Proof.
  split.
  - intros (s & H). destruct (history_sound E l s H) as (A & HA & _). eauto.
  - intros (A & H). destruct (history_complete E l A H) as (s & Hs & _). eauto.
Qed.
Print Assumptions C44_history.

(** ... and after each, the cache contains what the reference cache contains:
    artifacts, dynamic states, known builders, dependencies, and the log. *)
Theorem C44_state E l s A :
  runs E any_op init_st l s → rruns (e_ask E) (e_kind E) new_ref l A → shows s A.
Proof. apply history_shows. Qed.
Print Assumptions C44_state.

(** The next call: the answers are the same, also if it is the panic after which
    no history goes on. *)
Theorem C44_call E l s A x y :
  runs E any_op init_st l s → rruns (e_ask E) (e_kind E) new_ref l A →
  (∃ s', answered E s x y s') ↔ (∃ A', rcall (e_ask E) (e_kind E) x A y A').
Proof.
  intros Hs HA. pose proof (history_shows E l s A Hs HA) as H.
  destruct (reach_Inv E any_op s (ex_intro _ l Hs)) as [I Hst]. split.
  - intros (s' & n & Hn). destruct (call_sound E x A s n y s' I Hst H Hn) as (A' & Hc & _). eauto.
  - intros (A' & Hc). destruct (call_complete E x A y A' s I Hst H Hc) as (n & s' & Hn & _). exists s', n. by apply Hn.
Qed.
Print Assumptions C44_call.

(** The reference cache is deterministic. *)
Theorem C44_deterministic E l A x y y' A1 A2 :
  rruns (e_ask E) (e_kind E) new_ref l A →
  rcall (e_ask E) (e_kind E) x A y A1 → rcall (e_ask E) (e_kind E) x A y' A2 →
  y = y' ∧ (y ≠ Panicked PkCounterpart → A1 = A2).
Proof.
  intros HA. destruct (history_complete E l A HA) as (s & Hs & H).
  destruct (reach_Inv E any_op s (ex_intro _ l Hs)) as [I Hst]. by apply (call_det E s).
Qed.
Print Assumptions C44_deterministic.

(** A history of the reference cache, worked out by its rules alone: allocate a
    leaf and a builder wrapping it, get the latter, invalidate the leaf: both
    artifacts and the dependency are gone. *)
Definition ask0 (n : nat) : N := (100 + N.of_nat n)%N.
Definition by_hand : list (op * answer) :=
  [(OLookup HRef 1%N, Returned (OutOpt None));
   (OInvalidate 0%N, Returned OutUnit);
   (OLookup HRef 1%N, Returned (OutOpt (Some (RvVal (VSome (VNum 7))))));
   (OGet HRef 1%N, Returned (OutRes (RvVal (VSome (VNum 7)))));
   (OAlloc (d_mid 0%N), Returned (OutObj 1%N));
   (OAlloc (d_leaf (VNum 7)), Returned (OutObj 0%N))].
Corollary C44_by_hand : ∃ A, rruns ask0 Shared new_ref by_hand A ∧
  r_art A = ∅ ∧ r_deps A = ∅ ∧ r_known A = {[0%N; 1%N]} ∧ r_state A = <[0%N := VNum 7]> {[1%N := VUnit]}.
Proof.
  assert (r_free new_ref (ask0 0)) as F0 by (intros o [Ho|Ho]; set_solver).
  set (A1 := r_alloc (d_leaf (VNum 7)) (ask0 0) new_ref).
  assert (rcall ask0 Shared (OAlloc (d_leaf (VNum 7))) new_ref (Returned (OutObj 0%N)) A1) as C1 by (apply rc_alloc; exact F0).
  assert (r_free A1 (ask0 1)) as F1.
  { intros o [Ho|Ho]; cbn in Ho; [|set_solver]. assert (o = 0%N) as -> by set_solver. cbn. discriminate. }
  set (A2 := r_alloc (d_mid 0%N) (ask0 1) A1).
  assert (rcall ask0 Shared (OAlloc (d_mid 0%N)) A1 (Returned (OutObj 1%N)) A2) as C2 by (apply rc_alloc; exact F1).
  assert (1%N ∈ r_live A2) as L1 by (cbn; set_solver). assert (0%N ∈ r_live A2) as L0 by (cbn; set_solver).
  assert (∃ A3, rget ask0 Shared [] HRef 1%N A2 (Some (RvVal (VSome (VNum 7)))) A3 ∧
     r_art A3 = <[1%N := Bin 1 (VSome (VNum 7))]> {[0%N := Bin 0 (VNum 7)]} ∧ r_deps A3 = {[(1%N, 0%N)]} ∧
     r_known A3 = {[0%N; 1%N]} ∧ r_state A3 = <[0%N := VNum 7]> {[1%N := VUnit]} ∧ r_live A3 = {[1%N; 0%N]} ∧ r_who A3 = r_who A2) as (A3 & G & H1 & H2 & H3 & H4 & H5 & H6).
  { eexists. split.
    - eapply (rget_built ask0 Shared [] HRef 1%N A2 (Bin 1 (VSome (VNum 7)))); [exact L1|discriminate|reflexivity|].
      eapply rbuild_ok; [reflexivity|right; split; reflexivity|]. cbn [d_mid bd_body].
      eapply rrun_resolve.
      + eapply (rget_built _ _ _ HRef 0%N _ (Bin 0 (VNum 7))); [exact L0|discriminate|reflexivity|].
        eapply rbuild_ok; [reflexivity|right; split; reflexivity|]. cbn [d_leaf bd_body].
        eapply rrun_state; [cbn; by rewrite lookup_insert|]. apply rrun_newbin. apply rrun_ret.
      + cbn [conv bin_val]. apply rrun_newbin. apply rrun_ret.
    - cbn. split_and!; try reflexivity; try set_solver. }
  assert (r_affected A3 0%N {[0%N; 1%N]}) as Haf.
  { intros w. rewrite H2. split.
    - rewrite elem_of_union, !elem_of_singleton. intros [->| ->]; [apply rtc_refl|]. apply rtc_once. set_solver.
    - assert (∀ x y, rtc (λ x y, (y, x) ∈ ({[(1%N, 0%N)]} : gset (obj * obj))) x y → x ∈ ({[0%N; 1%N]} : gset obj) → y ∈ ({[0%N; 1%N]} : gset obj)) as Hind.
      { induction 1 as [|x y z Hxy _ IH]; [done|]. intros _. apply IH. apply elem_of_singleton in Hxy. injection Hxy as -> ->. set_solver. }
      intros Hr. apply (Hind _ _ Hr). set_solver. }
  set (A4 := r_note (EInvalidate 0%N) (r_tock (r_spoil 0%N (r_forget {[0%N; 1%N]} A3)))).
  assert (r_art A4 = ∅) as Hart.
  { cbn. apply map_eq. intros k. rewrite lookup_empty. apply map_filter_lookup_None. right. intros b Hb. rewrite H1 in Hb. cbn.
    intros Hn. apply lookup_insert_Some in Hb as [[<- _]|[_ [<- _]%lookup_singleton_Some]]; set_solver. }
  assert (rcall ask0 Shared (OLookup HRef 1%N) A4 (Returned (OutOpt None)) A4) as C6.
  { pose proof (rc_lookup ask0 Shared HRef 1%N A4) as C. rewrite Hart, lookup_empty in C. apply C; [cbn; rewrite H5; set_solver|discriminate]. }
  assert (rcall ask0 Shared (OLookup HRef 1%N) A3 (Returned (OutOpt (Some (RvVal (VSome (VNum 7)))))) A3) as C4.
  { pose proof (rc_lookup ask0 Shared HRef 1%N A3) as C. rewrite H1, lookup_insert in C. apply C; [rewrite H5; set_solver|discriminate]. }
  assert (rcall ask0 Shared (OInvalidate 0%N) A3 (Returned OutUnit) A4) as C5 by (apply rc_invalidate; [rewrite H5; set_solver|exact Haf]).
  exists A4. split.
  - unfold by_hand. eapply rruns_call; [|exact C6|discriminate]. eapply rruns_call; [|exact C5|discriminate].
    eapply rruns_call; [|exact C4|discriminate]. eapply rruns_call; [|apply rc_get; exact G|discriminate].
    eapply rruns_call; [|exact C2|discriminate]. eapply rruns_call; [|exact C1|discriminate]. constructor.
  - split_and!; [exact Hart| |cbn; exact H3|cbn; exact H4].
    cbn. rewrite H2. apply set_eq. intros [u w]. rewrite elem_of_filter, elem_of_singleton. cbn. split; [|set_solver].
    intros [[Hu _] [= -> ->]]. set_solver.
Qed.
Print Assumptions C44_by_hand.

(** So the cache has this history, too. *)
Corollary C44_applies : ∃ s, runs (env_of Shared true) any_op init_st by_hand s ∧ cached s 0 = None ∧ cached s 1 = None ∧ state_of s 0 = Some (VNum 7).
Proof.
  destruct C44_by_hand as (A & HA & H1 & H2 & H3 & H4).
  destruct (proj2 (C44_history (env_of Shared true) by_hand)) as [s Hs]; [by exists A|].
  pose proof (C44_state (env_of Shared true) by_hand s A Hs HA) as H. exists s. split; [done|].
  rewrite <- !(sh_art _ _ H), <- (sh_state _ _ H), H1, H4. split_and!; [done..|]. by rewrite lookup_insert.
Qed.

(** ** C45 *)

(** Two caches in the same outside world (allocator included), with the same kind
    of cans; one may be compiled with debug assertions and the other not, and
    their hash sets may be iterated in different orders. *)
Definition same_world (E1 E2 : env) : Prop := e_ask E1 = e_ask E2 ∧ e_kind E1 = e_kind E2.

(** They have the same histories, ... *)
Theorem C45_history E1 E2 l :
  same_world E1 E2 → (∃ s, runs E1 any_op init_st l s) ↔ (∃ s, runs E2 any_op init_st l s).
Proof. intros [H1 H2]. by rewrite !C44_history, H1, H2. Qed.
Print Assumptions C45_history.

(** ... contain the same at the end, ... *)
Theorem C45_state E1 E2 l s1 s2 :
  same_world E1 E2 → runs E1 any_op init_st l s1 → runs E2 any_op init_st l s2 →
  (∀ o, cached s1 o = cached s2 o) ∧ (∀ o, state_of s1 o = state_of s2 o) ∧ (∀ o, knows s1 o ↔ knows s2 o) ∧
  (∀ u w, depends s1 u w ↔ depends s2 u w) ∧ objs s1 = objs s2 ∧ alive s1 = alive s2 ∧ trace s1 = trace s2.
Proof.
  intros [W1 W2] R1 R2. destruct (history_sound E1 l s1 R1) as (A & HA & H1).
  assert (shows s2 A) as H2 by (apply (history_shows E2 l); [done|]; by rewrite <- W1, <- W2).
  split_and!.
  - intros o. by rewrite <- (sh_art _ _ H1), (sh_art _ _ H2).
  - intros o. by rewrite <- (sh_state _ _ H1), (sh_state _ _ H2).
  - intros o. by rewrite <- (sh_known _ _ H1), (sh_known _ _ H2).
  - intros u w. by rewrite <- (sh_deps _ _ H1), (sh_deps _ _ H2).
  - by rewrite <- (sh_who _ _ H1), (sh_who _ _ H2).
  - by rewrite <- (sh_live _ _ H1), (sh_live _ _ H2).
  - by rewrite <- (sh_log _ _ H1), (sh_log _ _ H2).
Qed.
Print Assumptions C45_state.

(** ... and answer the next call in the same way, panics included. *)
Theorem C45_next E1 E2 l s1 s2 x y :
  same_world E1 E2 → runs E1 any_op init_st l s1 → runs E2 any_op init_st l s2 →
  (∃ s', answered E1 s1 x y s') ↔ (∃ s', answered E2 s2 x y s').
Proof.
  intros [W1 W2] R1 R2. destruct (history_sound E1 l s1 R1) as (A & HA & H1).
  rewrite (C44_call E1 l s1 A x y R1 HA). rewrite W1, W2 in *. by rewrite (C44_call E2 l s2 A x y R2 HA).
Qed.
Print Assumptions C45_next.

(** Boxed and shared artifacts: what a cache of boxed artifacts answers without
    mutable access, a cache of shared artifacts answers, too. *)
Theorem C45_kind E1 E2 l s1 :
  e_kind E1 = Boxed → e_kind E2 = Shared → e_ask E1 = e_ask E2 → (∀ x y o, (x, y) ∈ l → ¬ mut_of x o) →
  runs E1 any_op init_st l s1 →
  ∃ s2, runs E2 any_op init_st l s2 ∧ (∀ o, cached s1 o = cached s2 o) ∧ (∀ o, state_of s1 o = state_of s2 o) ∧
    (∀ o, knows s1 o ↔ knows s2 o) ∧ (∀ u w, depends s1 u w ↔ depends s2 u w) ∧ trace s1 = trace s2.
Proof.
  intros K1 K2 W Hl R1. destruct (history_sound E1 l s1 R1) as (A & HA & H1). rewrite K1, W in HA.
  apply history_kind in HA; [|done]. rewrite <- K2 in HA. destruct (history_complete E2 l A HA) as (s2 & R2 & H2).
  exists s2. split; [done|]. split_and!.
  - intros o. by rewrite <- (sh_art _ _ H1), (sh_art _ _ H2).
  - intros o. by rewrite <- (sh_state _ _ H1), (sh_state _ _ H2).
  - intros o. by rewrite <- (sh_known _ _ H1), (sh_known _ _ H2).
  - intros u w. by rewrite <- (sh_deps _ _ H1), (sh_deps _ _ H2).
  - by rewrite <- (sh_log _ _ H1), (sh_log _ _ H2).
Qed.
Print Assumptions C45_kind.

(** Not vacuous: the diamond with debug assertions and ascending iteration, and
    without and descending. *)
Definition env_desc_rel : env := Env (e_ask env_b) (λ _ _ _ x, (1000000 - x)%N) false Boxed.
Corollary C45_applies : same_world env_b env_desc_rel ∧
  (∃ l s, runs env_b any_op init_st l s ∧ cached s 3 ≠ None ∧ depends s 3 1 ∧ depends s 3 2) ∧
  answers env_b 10 (dia_ops ++ [OInvalidate 0%N; OLookup HRef 3%N; OGet HRef 3%N]) =
  answers env_desc_rel 10 (dia_ops ++ [OInvalidate 0%N; OLookup HRef 3%N; OGet HRef 3%N]).
Proof.
  split; [done|]. split.
  - destruct b_diamond_reachable as [l Hl]. exists l, b_diamond. split; [exact Hl|]. split_and!.
    + assert (match cached b_diamond 3 with None => false | Some _ => true end = true) as Hc by (vm_compute; reflexivity).
      intros Hn. rewrite Hn in Hc. discriminate Hc.
    + apply depends_b_spec. vm_compute. reflexivity.
    + apply depends_b_spec. vm_compute. reflexivity.
  - vm_compute. reflexivity.
Qed.
