(** Properties: several caches (C47). *)
From Verif Require Import SeveralFacts RefLaws Demo.
From stdpp Require Import relations.

(** ** C47 *)

(** Each of several caches that share builders is a reference cache (Reference.v)
    in a program where between its calls time passes, bins are made, and builders
    are made (at addresses free for this cache) and dropped; [own i l] are the calls
    on cache [i] since it was made. *)
Theorem C47_reference E K l m i :
  mruns E K l m → ∃ A, rlife (e_ask E) (K i) (own i l) A ∧ shows (view i m) A.
Proof. intros H. apply (fi_ref _ _ _ _ _ (all_fine E K l m H i)). Qed.
Print Assumptions C47_reference.

(** So is its next answer. *)
Theorem C47_next E K l m i A x y :
  mruns E K l m → shows (view i m) A →
  (∃ s', answered (lane_env E K i) (view i m) x y s') ↔ (∃ A', rcall (e_ask E) (K i) x A y A').
Proof.
  intros Hm H. pose proof (fi_inv _ _ _ _ _ (all_fine E K l m Hm i)) as I. split.
  - intros (s' & n & Hn). destruct (call_sound (lane_env E K i) x A _ n y s' I eq_refl H Hn) as (A' & Hc & _). eauto.
  - intros (A' & Hc). destruct (call_complete (lane_env E K i) x A y A' _ I eq_refl H Hc) as (n & s' & Hn & _). exists s', n. by apply Hn.
Qed.
Print Assumptions C47_next.

(** Calls on other caches, whatever they build, remove or drop, and dropping other
    caches, change nothing of what a cache holds. *)
Theorem C47_frame E K e l m' i :
  mruns E K (e :: l) m' → i ≠ (match e with MCall j _ _ | MDrop j => j end) →
  ∃ m, mruns E K l m ∧
    (∀ o, cached (view i m') o = cached (view i m) o) ∧ (∀ o, state_of (view i m') o = state_of (view i m) o) ∧
    (∀ o, knows (view i m') o ↔ knows (view i m) o) ∧ (∀ u w, depends (view i m') u w ↔ depends (view i m) u w) ∧
    (∀ o x, objs (view i m) !! o = Some x → objs (view i m') !! o = Some x) ∧ trace (view i m') = trace (view i m).
Proof.
  intros Hr Hi.
  assert (∀ m j n x y s', mruns E K l m → step (lane_env E K j) n x (view j m) = ends_as y s' → (∀ k, y = Panicked k → resumable k = true) →
    i ≠ j → let m' := put_lane j (set_stack [] s') m in
    (∀ o, cached (view i m') o = cached (view i m) o) ∧ (∀ o, state_of (view i m') o = state_of (view i m) o) ∧
    (∀ o, knows (view i m') o ↔ knows (view i m) o) ∧ (∀ u w, depends (view i m') u w ↔ depends (view i m) u w) ∧
    (∀ o x, objs (view i m) !! o = Some x → objs (view i m') !! o = Some x) ∧ trace (view i m') = trace (view i m)) as Hcall.
  { intros m j n x y s' Hm Hs Hy Hij. destruct (all_fine E K l m Hm j) as [I (A & _ & H)].
    destruct (call_sound (lane_env E K j) x A (view j m) n y s' I eq_refl H Hs) as (A' & Hc & H').
    assert (y ≠ Panicked PkCounterpart) as Hne by (intros ->; by specialize (Hy _ eq_refl)). specialize (H' Hne).
    assert (num A) as N. { intros o z. rewrite (sh_who _ _ H), (sh_nobj _ _ H). apply (i_num _ I). }
    destruct (call_moves _ _ _ _ _ _ Hc N) as [_ Hwho _ _ _]. rewrite (sh_who _ _ H), (sh_who _ _ H') in Hwho.
    cbn zeta. rewrite (view_other j i (set_stack [] s') m Hij). set (s2 := St _ _ _ _ _ _ _ _ _).
    destruct (frame (view i m) s2 (fi_inv _ _ _ _ _ (all_fine E K l m Hm i)) eq_refl Hwho) as (F1 & F2 & F3 & F4).
    split_and!; [done..| |done]. intros o z Hz. exact (lookup_weaken _ _ _ _ Hz Hwho). }
  inversion Hr as [|l0 m j n x r s' Hm Hs Hp|l0 m j n x k s' Hm Hs Hk Hp|l0 m j Hm]; subst; exists m; (split; [done|]).
  - destruct (step_Inv _ _ _ _ _ _ (fi_inv _ _ _ _ _ (all_fine E K l m Hm j)) eq_refl Hs) as [_ Hst].
    assert (s' = set_stack [] s') as Heq by (destruct s'; cbn in *; by subst). rewrite Heq.
    by apply (Hcall m j n x (Returned r)).
  - apply (Hcall m j n x (Panicked k)); [done|done|by intros ? [= <-]|done].
  - assert (view i (drop_lane j m) = view i m) as Hv by (unfold view, lane_of; cbn; by rewrite lookup_delete_ne).
    rewrite Hv. done.
Qed.
Print Assumptions C47_frame.

(** Different builders which are alive, or known to any of the caches, are at
    different addresses: no cache takes a builder for another one because of what
    another cache does. *)
Theorem C47_addresses E K l m i j o o' d d' a :
  mruns E K l m → (live (view i m) o ∨ knows (view i m) o) → (live (view j m) o' ∨ knows (view j m) o') →
  at_addr (view i m) o d a → at_addr (view j m) o' d' a → o = o'.
Proof.
  intros Hm Ho Ho' Ha Ha'. pose proof (fi_inv _ _ _ _ _ (all_fine E K l m Hm i)) as I. pose proof (fi_inv _ _ _ _ _ (all_fine E K l m Hm j)) as J.
  destruct Ho as [Ho|(d1 & a1 & H1 & Hk1)], Ho' as [Ho'|(d2 & a2 & H2 & Hk2)].
  - eapply (i_addr _ I); [by left|by left|done..].
  - unfold at_addr in *. eapply (i_addr _ J); [by left|right; by exists a2|exact Ha|done].
  - unfold at_addr in *. eapply (i_addr _ I); [right; by exists a1|by left|done..].
  - unfold at_addr in *. rewrite Ha in H1. rewrite Ha' in H2. injection H1 as <- <-. injection H2 as <- <-.
    exact (all_agree E K l m Hm i j a o o' Hk1 Hk2).
Qed.
Print Assumptions C47_addresses.

(** With a single cache, this is the system of the other properties. *)
Definition alone (l : list (op * answer)) : list mevent := map (λ x, MCall 0 x.1 x.2) l.
Theorem C47_alone E l s :
  runs E any_op init_st l s ↔ ∃ m, mruns E (λ _, e_kind E) (alone l) m ∧ s = view 0 m.
Proof.
  assert (lane_env E (λ _, e_kind E) 0 = E) as HE by (by destruct E).
  assert (∀ m, mruns E (λ _, e_kind E) (alone l) m → ∀ j, j ≠ 0 → lane_of m j = new_lane) as Hnew.
  { intros m Hm j Hj. assert (j ∉ ev_lane <$> alone l) as Hu.
    { rewrite elem_of_list_fmap. intros (e & -> & He). unfold alone in He. apply elem_of_list_In, in_map_iff in He as (z & <- & _). done. }
    unfold lane_of. by rewrite (proj1 (unused_lane _ _ _ _ j Hm Hu)). }
  revert s Hnew. induction l as [|[x y] l IH]; intros s Hnew.
  - split.
    + inversion 1; subst. exists m_init. split; [constructor|]. unfold view, lane_of. cbn. by rewrite lookup_empty.
    + intros (m & Hm & ->). inversion Hm; subst. unfold view, lane_of. cbn. rewrite lookup_empty. constructor.
  - assert (∀ m, mruns E (λ _, e_kind E) (alone l) m → ∀ j, j ≠ 0 → lane_of m j = new_lane) as Hnew'.
    { intros m Hm j Hj. assert (j ∉ ev_lane <$> alone l) as Hu.
      { rewrite elem_of_list_fmap. intros (e & -> & He). unfold alone in He. apply elem_of_list_In, in_map_iff in He as (z & <- & _). done. }
      unfold lane_of. by rewrite (proj1 (unused_lane _ _ _ _ j Hm Hu)). }
    split.
    + inversion 1 as [|l0 s0 n x0 r s' Hr _ Hs|l0 s0 n x0 k s' Hr _ Hs Hk]; subst.
      * apply IH in Hr as (m & Hm & ->); [|done]. exists (put_lane 0 s m). split.
        -- cbn. eapply mruns_done; [done|rewrite HE; exact Hs|]. intros j o d a Hj _ _. rewrite (Hnew' m Hm j Hj). apply lookup_empty.
        -- rewrite view_put. destruct (step_Inv _ _ _ _ _ _ (fi_inv _ _ _ _ _ (all_fine E _ _ m Hm 0)) eq_refl Hs) as [_ Hst]. destruct s; cbn in *; by subst.
      * apply IH in Hr as (m & Hm & ->); [|done]. exists (put_lane 0 (unwound s') m). split.
        -- cbn. eapply mruns_panic; [done|rewrite HE; exact Hs|done|]. intros j o d a Hj _ _. rewrite (Hnew' m Hm j Hj). apply lookup_empty.
        -- by rewrite view_put.
    + intros (m' & Hm' & ->). cbn in Hm'. inversion Hm' as [|l0 m j n x0 r s' Hm Hs Hp|l0 m j n x0 k s' Hm Hs Hk Hp|]; subst.
      * rewrite HE in Hs. eapply runs_done; [apply IH; [done|by exists m]|done|]. rewrite view_put.
        destruct (step_Inv _ _ _ _ _ _ (fi_inv _ _ _ _ _ (all_fine E _ _ m Hm 0)) eq_refl Hs) as [_ Hst].
        assert (set_stack [] s' = s') as -> by (destruct s'; cbn in *; by subst). exact Hs.
      * rewrite HE in Hs. rewrite view_put. change (set_stack [] (unwound s')) with (unwound s').
        eapply runs_panic; [apply IH; [done|by exists m]|done|exact Hs|done].
Qed.
Print Assumptions C47_alone.

(** Not vacuous: as in src/multi_level_test.rs:88-127 ([test_level_1]), cache 0
    builds builders, cache 1 builds their artifacts. *)
Definition not_pinned_b (i : nat) (m : mst) (s' : st) : bool :=
  forallb (λ jl, bool_decide (jl.1 = i) ||
    forallb (λ x, bool_decide (x.1 < nobj (m_rest m))%N ||
      bool_decide (known (l_ch jl.2) !! x.2.2 = None)) (map_to_list (objs s'))) (map_to_list (m_lanes m)).
Lemma not_pinned_b_spec i m s' : not_pinned_b i m s' = true → not_pinned i m s'.
Proof.
  unfold not_pinned_b, not_pinned. intros H j o d a Hj Ho Hoa. unfold lane_of.
  destruct (m_lanes m !! j) as [l|] eqn:Hl; [|apply lookup_empty].
  rewrite forallb_forall in H. specialize (H (j, l)). rewrite <- elem_of_list_In, elem_of_map_to_list in H. specialize (H Hl). cbn in H.
  apply orb_true_iff in H as [H|H]; [by apply bool_decide_eq_true in H|].
  rewrite forallb_forall in H. specialize (H (o, (d, a))). rewrite <- elem_of_list_In, elem_of_map_to_list in H. specialize (H Hoa). cbn in H.
  apply orb_true_iff in H as [H|H]; apply bool_decide_eq_true in H; [lia|done].
Qed.
Inductive mcall := Call (i : nat) (x : op) | Drop (i : nat).
Fixpoint mrun (E : env) (K : nat → kind) (n : nat) (l : list mcall) (h : list mevent) (m : mst) : option (list mevent * mst) :=
  match l with
  | [] => Some (h, m)
  | Call i x :: l => match step (lane_env E K i) n x (view i m) with
    | Done r s' => if not_pinned_b i m s' then mrun E K n l (MCall i x (Returned r) :: h) (put_lane i s' m) else None
    | Panic k s' => if resumable k && not_pinned_b i m s' then mrun E K n l (MCall i x (Panicked k) :: h) (put_lane i (unwound s') m) else None
    | _ => None end
  | Drop i :: l => mrun E K n l (MDrop i :: h) (drop_lane i m)
  end.
Lemma mrun_mruns E K n l h m h' m' : mruns E K h m → mrun E K n l h m = Some (h', m') → mruns E K h' m'.
Proof.
  revert h m. induction l as [|[i x|i] l IH]; intros h m Hm; cbn [mrun].
  - by intros [= <- <-].
  - destruct (step _ _ _ _) as [r s'|k s'| |] eqn:Hs; try done.
    + destruct (not_pinned_b i m s') eqn:Hp; [|done]. apply IH. eapply mruns_done; [done|done|by apply not_pinned_b_spec].
    + destruct (resumable k) eqn:Hk; [|done]. destruct (not_pinned_b i m s') eqn:Hp; [|done]. cbn. apply IH.
      eapply mruns_panic; [done|done|done|by apply not_pinned_b_spec].
  - apply IH. by constructor.
Qed.
Definition d_count : bdef := BDef 6 0 (Some VUnit) (PAsk (λ n, PNewBin (VNum n) (λ b, PRet (Ok b)))).
Definition d_builder_builder : bdef := BDef 7 0 (Some VUnit) (PNew d_count (λ o, PNewBin (VObj o) (λ b, PRet (Ok b)))).
Definition level_1 : list mcall :=
  [Call 0 (OAlloc d_builder_builder); Call 0 (OGet HRef 0%N);  (* leaf1 is builder 1 *)
   Call 1 (OAlloc d_count);                                    (* leaf2 is builder 2 *)
   Call 1 (OGet HRef 1%N); Call 1 (OGet HRef 1%N); Call 1 (OGet HRef 2%N);
   Call 0 (OGet HRef 0%N); Call 1 (OGet HRef 1%N);
   Call 0 OClearAll; Call 0 (OGet HRef 0%N);                   (* builder 3 *)
   Call 1 (OGet HRef 1%N); Call 1 (OGet HRef 3%N); Drop 0; Call 1 (OGet HRef 1%N)].
Definition given (h : list mevent) : list val :=
  omap (λ e, match e with MCall _ _ (Returned (OutRes (RvVal v))) => Some v | _ => None end) (rev h).
Definition env_m := env_of Shared true.
Definition kind_m (i : nat) : kind := match i with 0 => Shared | _ => Boxed end.
Definition level_1_end : list mevent * mst :=
  match mrun env_m kind_m 9 level_1 [] m_init with Some r => r | None => ([], m_init) end.
Theorem C47_applies :
  mruns env_m kind_m level_1_end.1 level_1_end.2 ∧ List.length (own 1 level_1_end.1) = 8 ∧ own 0 level_1_end.1 = [] ∧
  given level_1_end.1 =
    [VObj 1; VNum 103; VNum 103; VNum 104; VObj 1; VNum 103; VObj 3; VNum 103; VNum 106; VNum 103].
Proof.
  split; [|split_and!; by vm_compute]. unfold level_1_end. destruct (mrun _ _ _ _ _ _) as [[h m]|] eqn:H; [|constructor].
  eapply mrun_mruns; [constructor|exact H].
Qed.
Print Assumptions C47_applies.
