(** Properties: the cache while other threads run (C48). *)
From Verif Require Import ThreadFacts RefLaws Demo.
From stdpp Require Import relations.

(** ** On the reference cache *)
Record stays (A A' : ref) : Prop := {
  sy_art : r_art A' = r_art A;
  sy_state : r_state A' = r_state A;
  sy_known : r_known A' = r_known A;
  sy_deps : r_deps A' = r_deps A;
  sy_log : r_log A' = r_log A;
}.
Lemma others_stays ask B A A' : r_others ask B A A' → stays A A'.
Proof.
  induction 1 as [|A A1 A2 H _ [E1 E2 E3 E4 E5]]; [done|]. inversion H; subst; by split.
Qed.
Lemma others_nobj ask B A A' w : r_others ask B A A' → (w < r_nobj A)%N → (w < r_nobj A')%N ∧ (w ∉ r_live A → w ∉ r_live A').
Proof.
  induction 1 as [|A A1 A2 H _ IH]; intros Hw; [done|].
  assert ((w < r_nobj A1)%N ∧ (w ∉ r_live A → w ∉ r_live A1)) as [H1 H2].
  { inversion H; subst; cbn; split; try done; try lia.
    - intros Hn [->%elem_of_singleton|?]%elem_of_union; [lia|done].
    - intros Hn [? _]%elem_of_difference. done. }
  destruct (IH H1) as [H3 H4]. split; [done|]. auto.
Qed.
Lemma stays_same s s' A A' :
  shows s A → shows s' A' → stays A A' →
  (∀ o, cached s' o = cached s o) ∧ (∀ o, state_of s' o = state_of s o) ∧ (∀ o, knows s' o ↔ knows s o) ∧
  (∀ u w, depends s' u w ↔ depends s u w) ∧ trace s' = trace s.
Proof.
  intros H H' [E1 E2 E3 E4 E5]. split_and!.
  - intros o. by rewrite <- (sh_art _ _ H), <- (sh_art _ _ H'), E1.
  - intros o. by rewrite <- (sh_state _ _ H), <- (sh_state _ _ H'), E2.
  - intros o. by rewrite <- (sh_known _ _ H), <- (sh_known _ _ H'), E3.
  - intros u w. by rewrite <- (sh_deps _ _ H), <- (sh_deps _ _ H'), E4.
  - by rewrite <- (sh_log _ _ H), <- (sh_log _ _ H'), E5.
Qed.
Lemma tget_cached ask kd B h o A x A' b :
  tget ask kd B h o A x A' → r_art A !! o = Some b → x = Some (conv h b) ∧ stays A A' ∧ o ∈ r_live A'.
Proof.
  intros Ht. induction Ht as [B h o A A1 x A' Hl R Ht IH|B h o A b' Hl Hh Hb'|B h o A b' A' Hl Hh Hn Hb'|B h o A e A' Hl Hh Hn Hb'|B h o A A' Hl Hh Hn Hb']; intros Hb.
  - pose proof (others_stays _ _ _ _ R) as S1. destruct IH as (-> & S2 & Ho); [by rewrite (sy_art _ _ S1)|]. split; [done|].
    split; [|done]. destruct S1, S2. split; congruence.
  - split; [congruence|done].
  - congruence.
  - congruence.
  - congruence.
Qed.

(** ** C48 *)

(** Whatever other threads do and whenever they do it ([T]: by the clock), the
    cache is the reference cache while others run (ThreadSpec.v): same answers,
    same artifacts, states, known builders, dependencies and log. *)
Theorem C48_reference E T l s :
  runs_t E T l s → ∃ A, truns (e_ask E) (e_kind E) l A ∧ shows s A.
Proof. intros H. by destruct (history_t_sound E T l s H) as (_ & _ & ?). Qed.
Print Assumptions C48_reference.

(** The calls panic for the reasons they do without other threads. *)
Theorem C48_panics E T l s n x k s' :
  runs_t E T l s → step_t E T n x s = Panic k s' →
  k = PkUser ∨ (k = PkGcIndex ∧ x = OGc) ∨ (k = PkCounterpart ∧ ∃ o f, x = OGetMut o f ∨ x = OLookupMut o f).
Proof.
  intros Hr Hs. destruct (history_t_sound E T l s Hr) as (I & Hst & A & _ & H).
  destruct (call_t_sound E T x A s n I Hst H) as [_ X]. destruct (X _ _ Hs) as (A' & Hc & _).
  inversion Hc as [x' A0 A1 y A'' N1 N2 R Hrc| | | | | | | ]; subst; auto.
  inversion Hrc; subst; auto.
  right; right. split; [done|]. match goal with Hm : mut_of _ _ |- _ => destruct Hm as [[f ->]|[f ->]]; eauto end.
Qed.
Print Assumptions C48_panics.

(** What others do changes nothing the cache holds. *)
Theorem C48_turn E T l s B w s' :
  runs_t E T l s → performs E B w s = Some s' →
  (∀ o, cached s' o = cached s o) ∧ (∀ o, state_of s' o = state_of s o) ∧ (∀ o, knows s' o ↔ knows s o) ∧
  (∀ u w, depends s' u w ↔ depends s u w) ∧ trace s' = trace s ∧ (∀ o, o ∈ B → live s o → live s' o).
Proof.
  intros Hr Hw. destruct (history_t_sound E T l s Hr) as (I & Hst & A & _ & H).
  destruct (performs_ok E B w s s' A I H Hw) as (T1 & A' & R & H').
  destruct (stays_same s s' A A' H H' (others_stays _ _ _ _ R)) as (F1 & F2 & F3 & F4 & F5).
  split_and!; try done. intros o HB Ho. by apply (tu_alive _ _ _ _ T1).
Qed.
Print Assumptions C48_turn.

(** [get] of an artifact in the cache returns it, calls no builder and changes
    nothing, whatever the others do meanwhile. *)
Theorem C48_hit E T l s n h o b :
  runs_t E T l s → cached s o = Some b →
  (∀ r s', step_t E T n (OGet h o) s = Done r s' →
     r = OutRes (conv h b) ∧ (∀ o, cached s' o = cached s o) ∧ (∀ o, state_of s' o = state_of s o) ∧ (∀ o, knows s' o ↔ knows s o) ∧
     (∀ u w, depends s' u w ↔ depends s u w) ∧ trace s' = trace s ∧ live s' o) ∧
  (∀ k s', step_t E T n (OGet h o) s ≠ Panic k s') ∧ step_t E T n (OGet h o) s ≠ NoFuel.
Proof.
  intros Hr Hb. destruct (history_t_sound E T l s Hr) as (I & Hst & A & _ & H).
  destruct (call_t_sound E T (OGet h o) A s n I Hst H) as [X1 X2].
  assert (r_art A !! o = Some b) as Hra by (by rewrite (sh_art _ _ H)).
  split; [|split].
  - intros r s' Hs. destruct (X1 _ _ Hs) as (I' & _ & A' & Hc & H'). inversion Hc as [x' A0 A1 y A'' N1 N2 R Hrc|h' o' A0 A1 r' A'' R Ht| | | | | | ]; subst.
    { by destruct (N1 h o). }
    pose proof (others_stays _ _ _ _ R) as S1. destruct (tget_cached _ _ _ _ _ _ _ _ b Ht) as ([= ->] & S2 & Ho); [by rewrite (sy_art _ _ S1)|].
    split; [done|]. assert (stays A A') as S3 by (destruct S1, S2; split; congruence).
    destruct (stays_same s s' A A' H H' S3) as (F1 & F2 & F3 & F4 & F5). split_and!; try done.
    unfold live. by rewrite <- (sh_live _ _ H').
  - intros k s' Hs. destruct (X2 _ _ Hs) as (A' & Hc & _). inversion Hc as [x' A0 A1 y A'' N1 N2 R Hrc| |h' o' A0 A1 A'' R Ht| | | | | ]; subst.
    { by destruct (N1 h o). }
    pose proof (others_stays _ _ _ _ R) as S1. destruct (tget_cached _ _ _ _ _ _ _ _ b Ht) as [? _]; [by rewrite (sy_art _ _ S1)|done].
  - unfold step_t, meanwhile. destruct (performs E (borrows (OGet h o)) (T (tick s)) s) as [s1|] eqn:Hp; [|done].
    destruct (performs_ok E _ _ _ _ _ I H Hp) as (T1 & A1 & R & H1). unfold get_t, meanwhile.
    destruct (promise o s1) as [[d a]|] eqn:Hpr; [|done]. destruct (how_legal E h); [|done].
    destruct (performs E [o] (T (tick s1)) s1) as [s2|] eqn:Hp2; [|done].
    pose proof (prims_Inv E _ _ (tu_prims _ _ _ _ T1) I) as I1.
    destruct (performs_ok E _ _ _ _ _ I1 H1 Hp2) as (T2 & A2 & R2 & H2).
    pose proof (prims_Inv E _ _ (tu_prims _ _ _ _ T2) I1) as I2.
    pose proof (turned_promise _ _ _ _ _ _ _ T2 Hpr (elem_of_list_here _ _)) as Hpr2.
    rewrite (lookup_art_ok _ o s2 d a I2 Hpr2). pose proof (live_cached s2 o d a I2 Hpr2) as Hc.
    rewrite <- (sh_art _ _ H2), (sy_art _ _ (others_stays _ _ _ _ R2)), (sy_art _ _ (others_stays _ _ _ _ R)), Hra in Hc.
    destruct (artifacts (ch s2) !! a); done.
Qed.
Print Assumptions C48_hit.

(** [garbage_collection] forgets whatever nobody held and nobody used when it was
    called.  Builders somebody still holds when it returns, and builders that have
    been used, stay known, with their artifacts, states and dependencies.
    The rest may go or stay, depending on when its last owner dropped it. *)
Theorem C48_gc E T l s n r s' :
  runs_t E T l s → step_t E T n OGc s = Done r s' →
  (∀ w, knows s w → ¬ live s w → (∀ u, ¬ depends s u w) → ¬ knows s' w ∧ cached s' w = None ∧ state_of s' w = None) ∧
  (∀ w, live s' w ∨ (∃ u, depends s u w) →
     (knows s' w ↔ knows s w) ∧ cached s' w = cached s w ∧ state_of s' w = state_of s w) ∧
  (∀ u w, depends s' u w ↔ depends s u w ∧ knows s' u) ∧
  (∀ w, knows s' w → knows s w ∧ cached s' w = cached s w ∧ state_of s' w = state_of s w) ∧
  trace s' = trace s.
Proof.
  intros Hr Hs. destruct (history_t_sound E T l s Hr) as (I & Hst & A & _ & H).
  destruct (call_t_sound E T OGc A s n I Hst H) as [X _]. destruct (X _ _ Hs) as (I' & _ & A' & Hc & H').
  inversion Hc as [x' A0 A1 y A'' N1 N2 R Hrc| | | | | |A0 A1 F A2 Hstr R1 [HF1 HF2] R2| ]; subst; [done|].
  pose proof (others_stays _ _ _ _ R1) as S1. pose proof (others_stays _ _ _ _ R2) as S2.
  assert (∀ w, w ∈ F → knows s w ∧ ¬ live s' w ∧ ∀ u, ¬ depends s u w) as HF.
  { intros w Hw. destruct (HF1 w Hw) as (Q1 & Q2 & Q3). split_and!.
    - by rewrite <- (sh_known _ _ H), <- (sy_known _ _ S1).
    - unfold live. rewrite <- (sh_live _ _ H'). cbn.
      assert (w < r_nobj A)%N as Hlt.
      { rewrite (sy_known _ _ S1), (sh_known _ _ H) in Q1. destruct Q1 as (d & a & Ho & _). rewrite (sh_nobj _ _ H). by apply (i_num _ I) in Ho. }
      destruct (others_nobj _ _ _ _ w R1 Hlt) as [Hlt1 _]. by apply (others_nobj _ _ _ _ w R2).
    - intros u Hu. apply (Q3 u). rewrite (sy_deps _ _ S1). by apply (sh_deps _ _ H). }
  assert (∀ w, knows s' w ↔ knows s w ∧ w ∉ F) as Hk.
  { intros w. rewrite <- (sh_known _ _ H'), <- (sh_known _ _ H). cbn. rewrite (sy_known _ _ S2). cbn. rewrite (sy_known _ _ S1). clear. set_solver. }
  assert (∀ w, w ∉ F → cached s' w = cached s w ∧ state_of s' w = state_of s w) as Hkeep.
  { intros w Hw. rewrite <- (sh_art _ _ H'), <- (sh_art _ _ H), <- (sh_state _ _ H'), <- (sh_state _ _ H). cbn.
    rewrite (sy_art _ _ S2), (sy_state _ _ S2). cbn. rewrite (sy_art _ _ S1), (sy_state _ _ S1). split; apply option_eq; intros z.
    - rewrite map_filter_lookup_Some. cbn. clear -Hw. naive_solver.
    - rewrite map_filter_lookup_Some. cbn. clear -Hw. naive_solver. }
  assert (∀ w, w ∈ F → cached s' w = None ∧ state_of s' w = None) as Hgone.
  { intros w Hw. rewrite <- (sh_art _ _ H'), <- (sh_state _ _ H'). cbn. rewrite (sy_art _ _ S2), (sy_state _ _ S2). cbn.
    split; apply map_filter_lookup_None; right; intros z _ Hz; by apply Hz. }
  split_and!.
  - intros w Hw1 Hw2 Hw3. assert (w ∈ F) as Hw.
    { apply HF2; [by rewrite (sh_known _ _ H)|by rewrite (sh_live _ _ H)|]. intros u Hu. by apply (Hw3 u), (sh_deps _ _ H). }
    split; [|by apply Hgone]. rewrite Hk. tauto.
  - intros w Hw. assert (w ∉ F) as Hn.
    { intros Hf. destruct (HF w Hf) as (_ & Q2 & Q3). destruct Hw as [?|[u Hu]]; [done|by apply (Q3 u)]. }
    split; [rewrite Hk; tauto|by apply Hkeep].
  - intros u w. rewrite Hk, <- (sh_deps _ _ H'), <- (sh_deps _ _ H). cbn. rewrite (sy_deps _ _ S2). cbn.
    rewrite elem_of_filter, (sy_deps _ _ S1). cbn. split.
    + intros ((Q1 & Q2) & Q3). split; [done|]. split; [|done]. apply (sh_deps _ _ H) in Q3. by apply depends_knows in Q3 as [? _].
    + intros (Q1 & Q2 & Q3). split; [|done]. split; [done|]. intros Hf. apply (sh_deps _ _ H) in Q1. by apply (proj2 (proj2 (HF w Hf)) u).
  - intros w [Hw Hn]%Hk. split; [done|by apply Hkeep].
  - rewrite <- (sh_log _ _ H'), <- (sh_log _ _ H). cbn. rewrite (sy_log _ _ S2). cbn. apply (sy_log _ _ S1).
Qed.
Print Assumptions C48_gc.

(** Different builders which are alive or known to the cache are at different
    addresses, also if others make builders while the cache is at work. *)
Theorem C48_addresses E T l s o o' d d' a :
  runs_t E T l s → live s o ∨ knows s o → live s o' ∨ knows s o' →
  at_addr s o d a → at_addr s o' d' a → o = o'.
Proof.
  intros Hr. destruct (history_t_sound E T l s Hr) as (I & _).
  assert (∀ o, live s o ∨ knows s o → pinned s o) as Hp.
  { intros w [?|(dw & aw & _ & Hk)]; [by left|right; by exists aw]. }
  intros H1%Hp H2%Hp. apply (i_addr _ I); done.
Qed.
Print Assumptions C48_addresses.

(** If the others do nothing, this is the system of the other properties. *)
Definition nobody (_ : nat) : list act := [].
Lemma gc_scan_nobody E ls s :
  gc_scan E nobody ls s = if forallb (is_known (ch s)) ls then Done (filter (λ a, unreachable (alive s) (ch s) a = true) ls) s else Panic PkGcIndex s.
Proof.
  induction ls as [|a ls IH]; cbn [gc_scan forallb]; [done|]. unfold meanwhile. cbn [nobody performs]. rewrite IH.
  unfold is_known at 2. destruct (known (ch s) !! a) as [o|] eqn:Ho; [|by rewrite bool_decide_eq_false_2 by (by intros [? ?])].
  rewrite bool_decide_eq_true_2 by eauto. cbn [andb]. destruct (forallb _ ls); [|done]. rewrite filter_cons. f_equal.
  destruct (decide (unreachable (alive s) (ch s) a = true)) as [Hu|Hu]; unfold unreachable in Hu; rewrite Ho in Hu; [by rewrite Hu|].
  by apply not_true_is_false in Hu as ->.
Qed.
Lemma gc_reap_nobody E pr i l s :
  gc_reap E nobody pr i l s = match gc_loop (e_dbg E) pr i l (ch s) with COk c => Done OutUnit (set_ch c s) | CPanic k c => Panic k (set_ch c s) | CFuel => NoFuel end.
Proof.
  revert i s. induction l as [|a l IH]; intros i s; cbn [gc_reap gc_loop]; [by destruct s|]. unfold meanwhile. cbn [nobody performs].
  destruct (invalidate_by_id _ _ _ _) as [c|k c|]; [|done..]. by rewrite IH.
Qed.
Theorem C48_sequential E n x s : step_t E nobody n x s = step E n x s.
Proof.
  unfold step_t, meanwhile. cbn [nobody performs].
  destruct x as [d|o|h o|o f|h o|o f|o|o f|o|o|o| | | |o| ]; try reflexivity. (* [OGet] included *)
  - cbn [step]. unfold get_mut_t, op_get_mut. destruct (e_kind E); [done|]. destruct (promise o s) as [[d a]|]; [|done].
    destruct (lookup_mut _ _ _ _ _) as [[c|k c|] [b| |k']]; reflexivity.
  - cbn [step]. unfold gc_t, garbage_collection. destruct (_ && _); [by destruct s|]. rewrite gc_scan_nobody.
    cbn zeta. destruct (forallb _ _); [|by destruct s]. rewrite gc_reap_nobody. by destruct (gc_loop _ _ _ _ _).
Qed.
Print Assumptions C48_sequential.
Corollary C48_nobody E l s : runs_t E nobody l s ↔ runs E any_op init_st l s.
Proof.
  split; intros H; induction H; try (by econstructor); [rewrite C48_sequential in *..|rewrite <- C48_sequential in *|rewrite <- C48_sequential in *];
    econstructor; done.
Qed.
Print Assumptions C48_nobody.

(** Not vacuous: while [d_top] is being built, between resolving its two builders,
    another thread drops the first one and makes a new builder (3).  Later, 2 is
    dropped, and while [garbage_collection] looks at the leafs, another thread
    drops 3, which is collected as well as 2. *)
Definition run_t (E : env) (T : nat → list act) (n : nat) : list op → list (op * answer) → st → option (list (op * answer) * st) :=
  fix go l h s :=
  match l with
  | [] => Some (h, s)
  | x :: l => match step_t E T n x s with
    | Done r s' => go l ((x, Returned r) :: h) s'
    | Panic k s' => if resumable k then go l ((x, Panicked k) :: h) (unwound s') else None
    | _ => None end
  end.
Lemma run_t_runs E T n l h s h' s' : runs_t E T h s → run_t E T n l h s = Some (h', s') → runs_t E T h' s'.
Proof.
  revert h s. induction l as [|x l IH]; intros h s H; cbn [run_t]; [by intros [= <- <-]|].
  destruct (step_t E T n x s) as [r s1|k s1| |] eqn:Hs; try done.
  - apply IH. by eapply runs_t_done.
  - destruct (resumable k) eqn:Hk; [|done]. apply IH. by eapply runs_t_panic.
Qed.
Definition busy (t : nat) : list act :=
  if (t <? 3) then [] else if (t =? 10) then [ADrop 0%N; ANew (d_leaf (VNum 9))] else if (t =? 26) then [ADrop 3%N] else [ASleep].
Definition busy_ops : list op :=
  [OAlloc (d_leaf (VNum 1)); OAlloc (d_leaf (VNum 2)); OAlloc (d_top 0 1); OGet HRef 2%N; OGet HRef 3%N; ODrop 2%N; OGc].
Definition busy_end (n : nat) : list (op * answer) * st :=
  match run_t env_s busy 9 (take n busy_ops) [] init_st with Some r => r | None => ([], init_st) end.
Theorem C48_applies :
  (∀ n, runs_t env_s busy (busy_end n).1 (busy_end n).2) ∧
  snd <$> (busy_end 7).1 =
    [Returned OutUnit; Returned OutUnit; Returned (OutRes (RvVal (VNum 9)));
     Returned (OutRes (RvVal (VPair (VNum 1) (VNum 2)))); Returned (OutObj 2); Returned (OutObj 1); Returned (OutObj 0)] ∧
  (live_b (busy_end 3).2 0 && negb (live_b (busy_end 4).2 0) && knows_b (busy_end 4).2 0 && depends_b (busy_end 4).2 2 0) = true ∧
  (live_b (busy_end 6).2 3 && knows_b (busy_end 6).2 3 && knows_b (busy_end 6).2 2) = true ∧
  (negb (live_b (busy_end 7).2 3) && negb (knows_b (busy_end 7).2 3) && negb (knows_b (busy_end 7).2 2) &&
   knows_b (busy_end 7).2 0 && knows_b (busy_end 7).2 1) = true.
Proof.
  split; [|split_and!; vm_compute; reflexivity]. intros n. unfold busy_end.
  destruct (run_t _ _ _ _ _ _) as [[h s]|] eqn:H; [|constructor]. eapply run_t_runs; [constructor|exact H].
Qed.
Print Assumptions C48_applies.
