(** C70: it makes no difference where builders are in memory.  Vocabulary: Spec.v,
    PlaceSpec.v. *)
From Verif Require Import PlaceFacts Facts1 Demo.
From stdpp Require Import relations.

Section Replay.
Context (E E' : env) (b : bool) (P : st → op → Prop).
Context (HP : ∀ s A x, shows s A → P s x → rcalm b A x).
Context (Hk : e_kind E' = e_kind E) (HE : never_reuses E').

Lemma replay l s : runs E P init_st l s →
  ∃ A A', rruns (e_ask E) (e_kind E) new_ref l A ∧ shows s A ∧ rruns (e_ask E') (e_kind E') new_ref l A' ∧ moved (e_ask E') b A A'.
Proof using HP Hk HE.
  intros Hr. induction Hr as [|l s n x r s' Hr IH Hx Hs|l s n x k s' Hr IH Hx Hs Hkk].
  - exists new_ref, new_ref. split_and!; [constructor|exact shows_init|constructor|apply moved_new].
  - destruct IH as (A & A' & HA & H & HA' & HM).
    assert (runs E any_op init_st l s) as Hr0 by (eapply runs_mono; [|exact Hr]; done).
    destruct (reach_Inv E any_op s (ex_intro _ l Hr0)) as [I Hst].
    destruct (call_sound E x A s n (Returned r) s' I Hst H Hs) as (A1 & Hc & H1).
    destruct (place_call _ _ _ b HE x A _ A1 Hc (HP s A x H Hx) A' HM) as (A1' & Hc' & HM1). rewrite <- Hk in Hc'.
    exists A1, A1'. split_and!; [by eapply rruns_call|by apply H1|by eapply rruns_call|done].
  - destruct IH as (A & A' & HA & H & HA' & HM).
    assert (runs E any_op init_st l s) as Hr0 by (eapply runs_mono; [|exact Hr]; done).
    destruct (reach_Inv E any_op s (ex_intro _ l Hr0)) as [I Hst].
    destruct (call_sound E x A s n (Panicked k) s' I Hst H Hs) as (A1 & Hc & H1).
    destruct (place_call _ _ _ b HE x A _ A1 Hc (HP s A x H Hx) A' HM) as (A1' & Hc' & HM1). rewrite <- Hk in Hc'.
    assert (Panicked k ≠ Panicked PkCounterpart) as Hne by (intros [= ->]; done).
    exists A1, A1'. split_and!; [by eapply rruns_call|by apply shows_stack, H1|by eapply rruns_call|done].
Qed.
End Replay.

Lemma moved_same s A s' A' ask b : shows s A → shows s' A' → moved ask b A A' → same_but_places s s'.
Proof.
  intros H H' HM. destruct (moved_fields _ _ _ _ HM) as (Fa & Fs & Fk & Fd & Fl & _ & _ & _ & Fg). split.
  - intros o d. pose proof (mv_def _ _ _ _ HM o) as Hd. unfold r_def in Hd. rewrite (sh_who _ _ H), (sh_who _ _ H') in Hd. unfold at_addr.
    destruct (objs s !! o) as [[e a]|], (objs s' !! o) as [[e' a']|]; cbn in Hd; try done.
    injection Hd as <-. split; intros (x & [= -> ->]); eauto.
  - intros o. unfold live. by rewrite <- (sh_live _ _ H), <- (sh_live _ _ H'), Fl.
  - intros o. by rewrite <- (sh_art _ _ H), <- (sh_art _ _ H'), Fa.
  - intros o. by rewrite <- (sh_state _ _ H), <- (sh_state _ _ H'), Fs.
  - intros o. by rewrite <- (sh_known _ _ H), <- (sh_known _ _ H'), Fk.
  - intros u w. by rewrite <- (sh_deps _ _ H), <- (sh_deps _ _ H'), Fd.
  - by rewrite <- (sh_log _ _ H), <- (sh_log _ _ H'), Fg.
Qed.
(** The reference cache's answers are determined by the calls. *)
Lemma ops_det E l l' A A' :
  rruns (e_ask E) (e_kind E) new_ref l A → rruns (e_ask E) (e_kind E) new_ref l' A' → fst <$> l = fst <$> l' → l = l' ∧ A = A'.
Proof.
  revert l' A A'. induction l as [|[x y] l IH]; intros [|[x' y'] l'] A A' H H' Hl; try done.
  - inversion H. inversion H'. by subst.
  - cbn in Hl. injection Hl as <- Hl. inversion H; inversion H'; subst.
    match goal with H1 : rruns _ _ _ l ?B1, H2 : rruns _ _ _ l' ?B2 |- _ => destruct (IH l' B1 B2 H1 H2 Hl) as [<- <-]; destruct (history_complete E l B1 H1) as (s & Hs & Hsh) end.
    destruct (reach_Inv E any_op s (ex_intro _ l Hs)) as [I Hst].
    match goal with H1 : rcall _ _ x _ y _, H2 : rcall _ _ x _ y' _ |- _ => destruct (call_det E s x _ y _ y' _ I Hst Hsh H1 H2) as [<- Heq] end.
    split; [done|]. by apply Heq.
Qed.

Lemma uncollected_calm s A x : shows s A → uncollected s x → rcalm false A x.
Proof. intros H. destruct x; try done. Qed.
Lemma tidy_calm s A x : shows s A → tidy s x → rcalm true A x.
Proof. intros H. destruct x; try done; cbn; intros Hx _; by apply (sh_known _ _ H). Qed.

Definition bump (E : env) : env := Env (λ t, N.of_nat t) (e_prio E) (e_dbg E) (e_kind E).
Lemma bump_never E : never_reuses (bump E).
Proof. intros t t' H. cbn in H. lia. Qed.

Lemma two_histories E E' b (P : st → op → Prop) l l' s s' :
  (∀ s A x, shows s A → P s x → rcalm b A x) → e_kind E = e_kind E' →
  runs E P init_st l s → runs E' P init_st l' s' → fst <$> l = fst <$> l' → l = l' ∧ same_but_places s s'.
Proof.
  intros HP Hk Hr Hr' Hl.
  destruct (replay E (bump E) b P HP eq_refl (bump_never E) l s Hr) as (A & B & _ & H & HB & HM).
  destruct (replay E' (bump E) b P HP Hk (bump_never E) l' s' Hr') as (A' & B' & _ & H' & HB' & HM').
  destruct (ops_det (bump E) l l' B B' HB HB' Hl) as [<- <-]. split; [done|].
  destruct (history_complete (bump E) l B HB) as (t & Ht & Hs).
  pose proof (moved_same s A t B _ _ H Hs HM) as K. pose proof (moved_same s' A' t B _ _ H' Hs HM') as K'.
  split; intros; rewrite ?(sp_def _ _ K), ?(sp_live _ _ K), ?(sp_cached _ _ K), ?(sp_state _ _ K), ?(sp_knows _ _ K), ?(sp_depends _ _ K), ?(sp_trace _ _ K);
    symmetry; apply K'.
Qed.

(** ** Two programs making the same calls, wherever the allocators put the builders, and
    whatever addresses they use again: the answers are the same, the state is the same *)
Theorem C70_history E E' l l' s s' :
  e_kind E = e_kind E' → runs E tidy init_st l s → runs E' tidy init_st l' s' →
  fst <$> l = fst <$> l' → l = l' ∧ same_but_places s s'.
Proof. apply (two_histories E E' true tidy). apply tidy_calm. Qed.
Print Assumptions C70_history.
Theorem C70_uncollected E E' l l' s s' :
  e_kind E = e_kind E' → runs E uncollected init_st l s → runs E' uncollected init_st l' s' →
  fst <$> l = fst <$> l' → l = l' ∧ same_but_places s s'.
Proof. apply (two_histories E E' false uncollected). apply uncollected_calm. Qed.
Print Assumptions C70_uncollected.

(** Every history could have been with an allocator that never uses an address again. *)
Theorem C70_replay E E' (P : st → op → Prop) l s :
  P = tidy ∨ P = uncollected → e_kind E' = e_kind E → never_reuses E' → runs E P init_st l s →
  ∃ s', runs E' any_op init_st l s' ∧ same_but_places s s'.
Proof.
  intros HP Hk HE Hr.
  assert (∃ b, ∀ s A x, shows s A → P s x → rcalm b A x) as [b Hb].
  { destruct HP as [->| ->]; [exists true; apply tidy_calm|exists false; apply uncollected_calm]. }
  destruct (replay E E' b P Hb Hk HE l s Hr) as (A & A' & _ & H & HA' & HM).
  destruct (history_complete E' l A' HA') as (s' & Hs' & H'). exists s'. split; [done|]. by eapply moved_same.
Qed.
Print Assumptions C70_replay.

(** ** Where it does make a difference: garbage collection after a purge.  The same calls;
    the one allocator puts the new builder where the purged one was, the other does not. *)
Definition env_reuse : env := Env (λ t, if (t =? 2)%nat then 100 else 100 + N.of_nat t)%N (λ _ _ _ x, x) true Shared.
Definition env_fresh : env := Env (λ t, 100 + N.of_nat t)%N (λ _ _ _ x, x) true Shared.
Definition purge_ops : list op :=
  [OAlloc (d_leaf (VNum 7)); OPurge 0; ODrop 0; OAlloc (d_leaf (VNum 8)); OGet HRef 1]%N.
Theorem C70_gc_refuted :
  ∃ E E' ops n, e_kind E = e_kind E' ∧ never_reuses E' ∧
    answers E n ops = answers E' n ops ∧ answers E n ops ≠ None ∧
    answer_to E n ops OGc = Some (Returned OutUnit) ∧ answer_to E' n ops OGc = Some (Panicked PkGcIndex).
Proof.
  exists env_reuse, env_fresh, purge_ops, 10. split; [done|]. split; [intros t t' H; cbn in H; lia|].
  split; [vm_compute; reflexivity|]. split; [vm_compute; discriminate|]. split; vm_compute; reflexivity.
Qed.
Print Assumptions C70_gc_refuted.

(** ** Example: a builder put where a collected one was, or elsewhere. *)
Definition place_ops : list op :=
  [OAlloc (d_leaf (VNum 7)); OGet HRef 0; ODrop 0; OGc; OAlloc (d_leaf (VNum 8)); ODynStateMut 1 (λ _, VNum 9)]%N.
Definition place_env (again : bool) : env := Env (λ t, if again && (t =? 2)%nat then 100 else 100 + N.of_nat t)%N (λ _ _ _ x, x) true Shared.
Definition place_st (again : bool) : st := match run (place_env again) 10 place_ops init_st with Some (_, s) => s | None => init_st end.
Lemma run_ops E (P : st → op → Prop) fuel l rs s s' s0 h0 : Forall (λ x, ∀ s, P s x) l → run E fuel l s = Some (rs, s') →
  runs E P s0 h0 s → ∃ h, runs E P s0 h s' ∧ fst <$> h = rev l ++ (fst <$> h0).
Proof.
  revert rs s h0. induction l as [|x l IH]; cbn [run]; intros rs s h0 HP Hr H0.
  - injection Hr as <- <-. eauto.
  - apply Forall_cons in HP as [Hx HP]. destruct (step E fuel x s) as [r s1|k s1| |] eqn:Hs; try done.
    + destruct (run E fuel l s1) as [[rs1 s2]|] eqn:H1; [|done]. injection Hr as <- <-.
      destruct (IH rs1 s1 ((x, Returned r) :: h0) HP H1) as (h & Hh & He); [by eapply runs_done|].
      exists h. split; [done|]. rewrite He. cbn. by rewrite <- app_assoc.
    + destruct (resumable k) eqn:Hk; [|done].
      destruct (run E fuel l (unwound s1)) as [[rs1 s2]|] eqn:H1; [|done]. injection Hr as <- <-.
      destruct (IH rs1 (unwound s1) ((x, Panicked k) :: h0) HP H1) as (h & Hh & He); [by eapply runs_panic|].
      exists h. split; [done|]. rewrite He. cbn. by rewrite <- app_assoc.
Qed.
Definition ran (again : bool) : bool := match run (place_env again) 10 place_ops init_st with Some _ => true | None => false end.
Lemma place_runs again : ran again = true → ∃ l, runs (place_env again) tidy init_st l (place_st again) ∧ fst <$> l = rev place_ops.
Proof.
  unfold ran, place_st. destruct (run (place_env again) 10 place_ops init_st) as [[rs s]|] eqn:Hr; [|done]. intros _.
  destruct (run_ops (place_env again) tidy 10 place_ops rs init_st s init_st []) as (h & Hh & He); [|exact Hr|constructor|].
  - unfold place_ops. repeat (apply List.Forall_cons; [intros t; try exact Logic.I|]); [..|apply List.Forall_nil]; cbn; repeat (constructor; intros).
  - exists h. split; [done|]. rewrite He. apply app_nil_r.
Qed.
Example C70_applies :
  (∃ l s, runs (place_env true) tidy init_st l s ∧ fst <$> l = rev place_ops ∧ snd <$> objs s !! 0%N = Some 100%N ∧ snd <$> objs s !! 1%N = Some 100%N) ∧
  (∃ l s, runs (place_env false) tidy init_st l s ∧ fst <$> l = rev place_ops ∧ snd <$> objs s !! 0%N = Some 100%N ∧ snd <$> objs s !! 1%N = Some 102%N) ∧
  never_reuses (place_env false).
Proof.
  split; [|split].
  - destruct (place_runs true) as (l & Hl & He); [vm_compute; reflexivity|]. exists l, (place_st true). split_and!; [done..|vm_compute; reflexivity|vm_compute; reflexivity].
  - destruct (place_runs false) as (l & Hl & He); [vm_compute; reflexivity|]. exists l, (place_st false). split_and!; [exact Hl|exact He|vm_compute; reflexivity|vm_compute; reflexivity].
  - intros t t' H. cbn in H. lia.
Qed.
Print Assumptions C70_applies.
