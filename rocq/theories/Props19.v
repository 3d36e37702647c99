(** Properties: cache transparency while other threads run (C52). *)
From Verif Require Import Demo TransTotal Props4 Props15.
From stdpp Require Import relations.

(** Histories where whatever is made, by the user or by other threads, satisfies
    [Q], and the user does not write into artifacts. *)
Definition only (Q : bdef → Prop) (T : nat → list act) (l : list (op * answer)) : Prop :=
  (∀ t d, ANew d ∈ T t → Q d) ∧
  (∀ d y, (OAlloc d, y) ∈ l → Q d) ∧
  (∀ o f y, (OGetMut o f, y) ∉ l ∧ (OLookupMut o f, y) ∉ l).
Definition pure_bdef (d : bdef) : Prop := pure_prog (bd_body d).
Definition pure_oblivious_bdef (d : bdef) : Prop := pure_prog (bd_body d) ∧ oblivious (bd_body d).

(** ** Proofs *)
Section Only.
Context (E : env) (T : nat → list act) (Q : bdef → Prop) (HT : ∀ t d, ANew d ∈ T t → Q d) (HQ : ∀ d, Q d → pure_prog (bd_body d)).
Lemma good_scan ls s : good Q s → keeps_good Q (gc_scan E T ls s).
Proof.
  revert s. induction ls as [|a ls IH]; intros s H; cbn [gc_scan]; [by split; intros ? ? [= <- <-]|].
  apply (good_meanwhile E T Q HT); [done|]. clear s H. intros s H. destruct (known (ch s) !! a) as [o|]; [|by split; intros ? ? [= <- <-]].
  destruct (IH s H) as [X1 X2]. destruct (gc_scan E T ls s) as [l s1|k s1| |]; [|by split; intros ? ? [= <- <-]; eapply X2|by split|by split].
  split; [|done]. intros ? ? [= <- <-]. by eapply X1.
Qed.
Lemma good_reap pr i ls s : good Q s → keeps_good Q (gc_reap E T pr i ls s).
Proof.
  revert i s. induction ls as [|a ls IH]; intros i s H; cbn [gc_reap]; [by split; intros ? ? [= <- <-]|].
  apply (good_meanwhile E T Q HT); [done|]. clear s H. intros s H. destruct (invalidate_by_id _ _ _ _) as [c|k c|]; [|by split; intros ? ? [= <- <-]|by split].
  apply IH. exact H.
Qed.
Lemma good_gc s : good Q s → keeps_good Q (gc_t E T s).
Proof.
  intros H. unfold gc_t. destruct (_ && _); [by split; intros ? ? [= <- <-]|].
  pose proof (good_scan (iter_order (prio E s 0 0) (leafs (ch s))) s H) as [X1 X2].
  destruct (gc_scan E T _ s) as [l s1|k s1| |]; [|split; [done|]; intros ? ? [= <- <-]; exact (X2 _ _ eq_refl)|by split|by split].
  pose proof (good_reap (prio E s) 1 l s1 (X1 _ _ eq_refl)) as [Y1 Y2].
  destruct (gc_reap E T _ _ _ _) as [r s2|k s2| |]; [|split; [done|]; intros ? ? [= <- <-]; exact (Y2 _ _ eq_refl)|by split|by split].
  split; [|done]. intros ? ? [= <- <-]. exact (Y1 _ _ eq_refl).
Qed.
Lemma good_step n x s A :
  shows s A → no_mut x → (∀ d, x = OAlloc d → Q d) → Inv s → stack s = [] → good Q s → 
  (∀ r s', step_t E T n x s = Done r s' → good Q s') ∧ (∀ k s', step_t E T n x s = Panic k s' → resumable k = true → good Q s').
Proof.
  intros HA Hm Hx I0 Hst0 H0. unfold step_t, meanwhile. destruct (performs E (borrows x) (T (tick s)) s) as [s1|] eqn:Hp; [|by split].
  assert (good Q s1) as H by (eapply good_performs; [|exact H0|exact Hp]; intros d; apply HT).
  destruct (performs_ok E _ _ s s1 A I0 HA Hp) as (T1 & _).
  pose proof (prims_Inv E _ _ (tu_prims _ _ _ _ T1) I0) as I.
  assert (stack s1 = []) as Hst by (by rewrite (tu_stack _ _ _ _ T1)). clear s A HA I0 Hst0 H0 Hp T1.
  assert (buildless x → (∀ d, x ≠ OAlloc d) → (∀ r s', step E n x s1 = Done r s' → good Q s') ∧
    (∀ k s', step E n x s1 = Panic k s' → resumable k = true → good Q s')) as Hsame.
  { intros Hb Hna. split; [intros r s' Hs|intros k s' Hs Hk];
      (destruct (step_objs E n x s1 s' I Hst Hb Hna) as [Ho _]; [unfold goes; eauto|]; intros o d a; rewrite Ho; apply H). }
  destruct x as [d|o|h o|o f|h o|o f|o|o f|o|o|o| | | |o| ]; try (by apply Hsame); try done.
  - cbn [step]. destruct (alloc E d s1) as [[o s3]|] eqn:Ha; [|by split]. split; [|done]. intros r s' [= <- <-].
    eapply good_alloc; [|exact H|exact Ha]. by apply Hx.
  - pose proof (good_get E T Q HT (build_t E T n) h o s1 (good_build E T Q HT HQ n) H) as [X1 X2].
    destruct (get_t E T _ h o s1) as [rv s3|k s3| |]; [..|by split|by split].
    + split; [|done]. intros r s' [= <- <-]. by eapply X1.
    + split; [done|]. intros k' s' [= <- <-] _. by eapply X2.
  - destruct (good_gc s1 H) as [X1 X2]. split; [exact X1|]. intros k s' Hs _. by eapply X2.
Qed.
Lemma good_runs l s : runs_t E T l s → (∀ d y, (OAlloc d, y) ∈ l → Q d) → (∀ x y, (x, y) ∈ l → no_mut x) → good Q s.
Proof.
  intros Hr. induction Hr as [|l s n x r s' Hr IH Hs|l s n x k s' Hr IH Hs Hk]; intros Hl Hm.
  - intros o d a. cbn. by rewrite lookup_empty.
  - destruct (history_t_sound E T l s Hr) as (I & Hst & A & _ & HA).
    refine (proj1 (good_step n x s A HA _ _ I Hst _) _ _ Hs); [by eapply Hm, elem_of_list_here|..].
    + intros d ->. eapply Hl, elem_of_list_here.
    + apply IH; [intros d y Hd; apply (Hl d y); by right|intros x' y Hd; apply (Hm x' y); by right].
  - destruct (history_t_sound E T l s Hr) as (I & Hst & A & _ & HA).
    assert (good Q s') as H; [|exact H].
    refine (proj2 (good_step n x s A HA _ _ I Hst _) _ _ Hs Hk); [by eapply Hm, elem_of_list_here|..].
    + intros d ->. eapply Hl, elem_of_list_here.
    + apply IH; [intros d y Hd; apply (Hl d y); by right|intros x' y Hd; apply (Hm x' y); by right].
Qed.
End Only.

Lemma only_good E T (Q : bdef → Prop) l s : (∀ d, Q d → pure_prog (bd_body d)) → runs_t E T l s → only Q T l → good Q s.
Proof.
  intros HQ Hr (H1 & H2 & H3). apply (good_runs E T Q H1 HQ l s Hr H2). intros [] y Hy; try done; by destruct (H3 o f y).
Qed.
Lemma only_mut (Q : bdef → Prop) T l x y : only Q T l → (x, y) ∈ l → no_mut x.
Proof. intros (_ & _ & H3) Hy. destruct x; try done; by destruct (H3 o f y). Qed.
Lemma good_shows s A : good pure_bdef s → shows s A → rpure A.
Proof.
  intros H Hs o d. unfold r_def. rewrite (sh_who _ _ Hs). destruct (objs s !! o) as [[d' a]|] eqn:Ho; [|done]. cbn. intros [= ->]. by eapply H.
Qed.
Lemma shows_defs s A : shows s A → (∀ o, r_def A o = defs s o) ∧ (∀ o, r_conf A o = config s o).
Proof.
  intros H. assert (∀ o, r_def A o = defs s o) as Hd by (intros o; unfold r_def, defs; by rewrite (sh_who _ _ H)).
  split; [done|]. intros o. unfold r_conf, config. rewrite (sh_state _ _ H), Hd. destruct (state_of s o); [done|].
  unfold initial, defs. by destruct (objs s !! o) as [[d a]|].
Qed.
Lemma rev_evals s A o r : shows s A → rev_at A o r → evals (defs s) (config s) o r.
Proof.
  intros H Hr. apply evD_evals in Hr. destruct (shows_defs s A H) as [H1 H2].
  refine (proj1 (evals_mono (r_def A) (r_conf A) (defs s) (config s) _) o r Hr). intros o' d Hd. split; [by rewrite <- H1|by rewrite H2].
Qed.
Lemma only_weaken (Q Q' : bdef → Prop) T l : (∀ d, Q d → Q' d) → only Q T l → only Q' T l.
Proof. intros H (H1 & H2 & H3). split_and!; [by eauto|by eauto|done]. Qed.
Lemma pure_oblivious_only T l : only pure_oblivious_bdef T l → only pure_bdef T l.
Proof. apply only_weaken. by intros d [? _]. Qed.

(** A history, and a [get] at its end. *)
Lemma get_transparent_t E T l s n h o :
  runs_t E T l s → only pure_bdef T l →
  (∀ r s', step_t E T n (OGet h o) s = Done r s' →
     (∃ x, evals (defs s') (config s') o (EvRet x) ∧ r = OutRes (handed h x)) ∧
     ∀ w d, defs s w = Some d → defs s' w = Some d ∧ config s' w = config s w) ∧
  (∀ k s', step_t E T n (OGet h o) s = Panic k s' →
     evals (defs s') (config s') o EvPanic ∧
     ∀ w d, defs s w = Some d → defs s' w = Some d ∧ config s' w = config s w).
Proof.
  intros Hr Ho. pose proof (only_good E T _ l s (λ d H, H) Hr Ho) as Hg.
  destruct (history_t_sound E T l s Hr) as (I & Hst & A & HA & H).
  destruct (truns_fine _ _ l A HA (λ x y, only_mut _ T l x y Ho)) as [W K]. specialize (K (good_shows s A Hg H)).
  assert (∀ A A' s', shows s A → shows s' A' → rgrow A A' → ∀ w d, defs s w = Some d → defs s' w = Some d ∧ config s' w = config s w) as Hold.
  { intros A0 A' s' H0 H' G w d. destruct (shows_defs s A0 H0) as [D1 D2], (shows_defs s' A' H') as [D1' D2'].
    rewrite <- D1, <- D1', <- D2, <- D2'. intros Hd. split; [by apply (def_mono A0); [apply G|]|].
    apply (rg_conf _ _ G). by eapply def_who. }
  destruct (call_t_sound E T (OGet h o) A s n I Hst H) as [X1 X2].
  destruct (good_step E T pure_bdef (proj1 Ho) (λ d H, H) n (OGet h o) s A H Logic.I (λ d H, ltac:(discriminate H)) I Hst Hg) as [Y1 Y2].
  split.
  - intros r s' Hs. destruct (X1 _ _ Hs) as (I' & _ & A' & Hc & H'). specialize (Y1 _ _ Hs).
    inversion Hc as [x' A0 A1 y A'' N1 N2 R Hrc|h' o' A0 A1 r' A'' R Ht| | | | | | ]; subst; [by destruct (N1 h o)|].
    destruct (others_grow _ _ _ _ R W) as [G1 E1]. destruct (others_more _ _ _ _ R W) as [W1 _].
    destruct (proj1 (all_fine _ _) _ _ _ _ _ _ Ht W1 (good_shows s' A' Y1 H') (rgrow_rok _ _ G1 E1 K)) as (_ & G2 & x & Hx & ->).
    split; [exists x; split; [by apply (rev_evals s' A')|done]|]. apply (Hold A A' s' H H'). by eapply rgrow_trans.
  - intros k s' Hs. destruct (X2 _ _ Hs) as (A' & Hc & H').
    inversion Hc as [x' A0 A1 y A'' N1 N2 R Hrc| |h' o' A0 A1 A'' R Ht| | | | | ]; subst; [by destruct (N1 h o)|].
    destruct H' as [I' H']; [done|]. specialize (Y2 _ _ Hs eq_refl).
    destruct (others_grow _ _ _ _ R W) as [G1 E1]. destruct (others_more _ _ _ _ R W) as [W1 _].
    destruct (proj1 (all_fine _ _) _ _ _ _ _ _ Ht W1 (good_shows s' A' Y2 H') (rgrow_rok _ _ G1 E1 K)) as (_ & G2 & Hx).
    split; [by apply (rev_evals s' A')|]. apply (Hold A A' s' H H'). by eapply rgrow_trans.
Qed.

(** ** C52 *)

(** Whatever other threads do and whenever they do it, [get*] returns what
    evaluating the builder from scratch, without a cache, gives ([evals],
    EvalSpec.v): with the builders there are in the end (others may have made some
    meanwhile) and their dynamic states. *)
Theorem C52_get E T l s n h o r s' :
  runs_t E T l s → only pure_bdef T l → step_t E T n (OGet h o) s = Done r s' →
  ∃ x, evals (defs s') (config s') o (EvRet x) ∧ r = OutRes (handed h x).
Proof. intros Hr Ho Hs. by apply (proj1 (get_transparent_t E T l s n h o Hr Ho) r s' Hs). Qed.
Print Assumptions C52_get.
Theorem C52_get_panics E T l s n h o k s' :
  runs_t E T l s → only pure_bdef T l → step_t E T n (OGet h o) s = Panic k s' →
  evals (defs s') (config s') o EvPanic.
Proof. intros Hr Ho Hs. by apply (proj2 (get_transparent_t E T l s n h o Hr Ho) k s' Hs). Qed.
Print Assumptions C52_get_panics.

(** Builders there were before the call are not changed by it, and have the state
    they had. *)
Theorem C52_before E T l s n h o s' :
  runs_t E T l s → only pure_bdef T l → (∃ r, step_t E T n (OGet h o) s = Done r s') ∨ (∃ k, step_t E T n (OGet h o) s = Panic k s') →
  ∀ w d, defs s w = Some d → defs s' w = Some d ∧ config s' w = config s w.
Proof.
  intros Hr Ho [[r Hs]|[k Hs]].
  - by apply (proj1 (get_transparent_t E T l s n h o Hr Ho) r s' Hs).
  - by apply (proj2 (get_transparent_t E T l s n h o Hr Ho) k s' Hs).
Qed.
Print Assumptions C52_before.

(** What [lookup*] returns is not stale either, nor is anything in the cache. *)
Theorem C52_cached E T l s o b :
  runs_t E T l s → only pure_bdef T l → cached s o = Some b → evals (defs s) (config s) o (EvRet (Ok b)).
Proof.
  intros Hr Ho Hb. pose proof (only_good E T _ l s (λ d H, H) Hr Ho) as Hg.
  destruct (history_t_sound E T l s Hr) as (I & Hst & A & HA & H).
  destruct (truns_fine _ _ l A HA (λ x y, only_mut _ T l x y Ho)) as [W K]. specialize (K (good_shows s A Hg H)).
  apply (rev_evals s A o _ H), K. by rewrite (sh_art _ _ H).
Qed.
Print Assumptions C52_cached.
Theorem C52_lookup E T l s n h o v s' :
  runs_t E T l s → only pure_bdef T l → step_t E T n (OLookup h o) s = Done (OutOpt (Some v)) s' →
  ∃ b, evals (defs s') (config s') o (EvRet (Ok b)) ∧ v = conv h b.
Proof.
  intros Hr Ho Hs. assert (runs_t E T ((OLookup h o, Returned (OutOpt (Some v))) :: l) s') as Hr' by (by eapply runs_t_done).
  assert (only pure_bdef T ((OLookup h o, Returned (OutOpt (Some v))) :: l)) as Ho'.
  { destruct Ho as (H1 & H2 & H3). split; [done|]. split.
    - intros d y [?|Hd]%elem_of_cons; [done|]. by eapply H2.
    - intros w f y. destruct (H3 w f y) as [N1 N2]. split; (intros [?|Hd]%elem_of_cons; [done|]); [by apply N1|by apply N2]. }
  destruct (history_t_sound E T l s Hr) as (I & Hst & A & HA & H).
  destruct (call_t_sound E T (OLookup h o) A s n I Hst H) as [X _]. destruct (X _ _ Hs) as (_ & _ & A' & Hc & H').
  inversion Hc as [x' A0 A1 y A'' N1 N2 R Hrc| | | | | | | ]; subst. inversion Hrc; subst.
  match goal with H0 : _ <$> _ = Some v |- _ => rename H0 into Hv | H0 : Some v = _ <$> _ |- _ => symmetry in H0; rename H0 into Hv end.
  destruct (r_art A' !! o) as [b|] eqn:Hb; [|done]. cbn in Hv. injection Hv as <-. exists b. split; [|done].
  apply (C52_cached E T _ s' o b Hr' Ho'). by rewrite <- (sh_art _ _ H').
Qed.
Print Assumptions C52_lookup.

(** If the code of builders does not depend on the addresses of bins, there is just
    one answer: any evaluation from scratch before the call gives it. *)
Theorem C52_get_unique E T l s n h o r s' x :
  runs_t E T l s → only pure_oblivious_bdef T l → step_t E T n (OGet h o) s = Done r s' → evals (defs s) (config s) o x →
  ∃ y rv, x = EvRet y ∧ r = OutRes rv ∧ strip_rval rv = strip_rval (handed h y).
Proof.
  intros Hr Ho Hs Hx. pose proof (pure_oblivious_only T l Ho) as Hp.
  destruct (C52_get E T l s n h o r s' Hr Hp Hs) as (y & Hy & ->).
  pose proof (C52_before E T l s n h o s' Hr Hp (or_introl (ex_intro _ _ Hs))) as Hb.
  apply (proj1 (evals_mono _ _ (defs s') (config s') Hb)) in Hx.
  destruct (history_t_sound E T l s Hr) as (I & Hst & A & HA & H).
  pose proof (only_good E T _ l s (λ d H, proj1 H) Hr Ho) as Hg.
  pose proof (proj1 (good_step E T pure_oblivious_bdef (proj1 Ho) (λ d H, proj1 H) n (OGet h o) s A H Logic.I (λ d H, ltac:(discriminate H)) I Hst Hg) _ _ Hs) as Hg'.
  assert (∀ w d, defs s' w = Some d → oblivious (bd_body d)) as HA'.
  { intros w d. unfold defs. destruct (objs s' !! w) as [[d' a]|] eqn:Hw; [|done]. cbn. intros [= ->]. by apply (Hg' w d a). }
  pose proof (proj1 (evals_det _ _ HA') o _ Hy _ Hx) as Heq.
  destruct x as [z|]; [|done]. cbn in Heq. injection Heq as Heq. exists z, (handed h y). split_and!; [done..|]. by apply strip_handed.
Qed.
Print Assumptions C52_get_unique.
Theorem C52_get_panics_unique E T l s n h o k s' x :
  runs_t E T l s → only pure_oblivious_bdef T l → step_t E T n (OGet h o) s = Panic k s' → evals (defs s) (config s) o x →
  x = EvPanic.
Proof.
  intros Hr Ho Hs Hx. pose proof (pure_oblivious_only T l Ho) as Hp.
  pose proof (C52_get_panics E T l s n h o k s' Hr Hp Hs) as Hy.
  pose proof (C52_before E T l s n h o s' Hr Hp (or_intror (ex_intro _ _ Hs))) as Hb.
  apply (proj1 (evals_mono _ _ (defs s') (config s') Hb)) in Hx.
  destruct (history_t_sound E T l s Hr) as (I & Hst & A & HA & H).
  pose proof (only_good E T _ l s (λ d H, proj1 H) Hr Ho) as Hg.
  destruct (call_t_sound E T (OGet h o) A s n I Hst H) as [_ X2]. destruct (X2 _ _ Hs) as (A' & Hc & _).
  assert (k = PkUser) as -> by (inversion Hc as [x' A0 A1 y A'' N1 N2 R Hrc| | | | | | | ]; subst; [by destruct (N1 h o)|done]).
  pose proof (proj2 (good_step E T pure_oblivious_bdef (proj1 Ho) (λ d H, proj1 H) n (OGet h o) s A H Logic.I (λ d H, ltac:(discriminate H)) I Hst Hg) _ _ Hs eq_refl) as Hg'.
  assert (∀ w d, defs s' w = Some d → oblivious (bd_body d)) as HA'.
  { intros w d. unfold defs. destruct (objs s' !! w) as [[d' a]|] eqn:Hw; [|done]. cbn. intros [= ->]. by apply (Hg' w d a). }
  pose proof (proj1 (evals_det _ _ HA') o _ Hy _ Hx) as Heq. by destruct x.
Qed.
Print Assumptions C52_get_panics_unique.

(** So the answer does not depend on the schedule. *)
Corollary C52_schedules E T T' l s n n' h o r r' s1 s2 x :
  runs_t E T l s → only pure_oblivious_bdef T l → runs_t E T' l s → only pure_oblivious_bdef T' l →
  evals (defs s) (config s) o x →
  step_t E T n (OGet h o) s = Done r s1 → step_t E T' n' (OGet h o) s = Done r' s2 →
  ∃ v v', r = OutRes v ∧ r' = OutRes v' ∧ strip_rval v = strip_rval v'.
Proof.
  intros Hr Ho Hr' Ho' Hx Hs Hs'.
  destruct (C52_get_unique E T l s n h o r s1 x Hr Ho Hs Hx) as (y & v & -> & -> & Hv).
  destruct (C52_get_unique E T' l s n' h o r' s2 _ Hr' Ho' Hs' Hx) as (y' & v' & [= <-] & -> & Hv').
  exists v, v'. split_and!; [done..|]. congruence.
Qed.
Print Assumptions C52_schedules.

(** And if evaluating from scratch ends, so does [get], whatever others do.
    ([Illegal]: the schedule does something impossible, or a builder resolves a
    builder that is dropped, or asks a boxed cache for a bin.) *)
Theorem C52_total E T l s n h o p x p' :
  runs_t E T l s → only pure_oblivious_bdef T l → eval (defs s) (config s) n o p = Some (x, p') →
  match step_t E T n (OGet h o) s with
  | Done r _ => ∃ y rv, x = EvRet y ∧ r = OutRes rv ∧ strip_rval rv = strip_rval (handed h y)
  | Panic _ _ => x = EvPanic
  | NoFuel => False
  | Illegal => True
  end.
Proof.
  intros Hr Ho Hev. pose proof (eval_sound _ _ _ _ _ _ _ Hev) as Hx.
  destruct (step_t E T n (OGet h o) s) as [r s'|k s'| |] eqn:Hs; [by eapply C52_get_unique|by eapply C52_get_panics_unique| |done].
  destruct (history_t_sound E T l s Hr) as (I & Hst & A & HA & H).
  pose proof (pure_oblivious_only T l Ho) as Hp.
  destruct (truns_fine _ _ l A HA (λ x y, only_mut _ T l x y Hp)) as [W K].
  specialize (K (good_shows s A (only_good E T _ l s (λ d H, H) Hr Hp) H)).
  pose proof (only_good E T _ l s (λ d H, proj1 H) Hr Ho) as Hg.
  assert (fits_t (defs s) (config s) A) as Hf.
  { intros w d Hd. destruct (shows_defs s A H) as [D1 D2]. by rewrite D1, D2. }
  unfold step_t in Hs. revert Hs. apply (total_meanwhile E T pure_oblivious_bdef (proj1 Ho) (defs s) (config s) _ s A _ I H K Hg Hf).
  intros s1 A1 T1 I1 H1 K1 Hg1 Hf1 _.
  pose proof (get_t_total E T pure_oblivious_bdef (proj1 Ho) (defs s) (config s) n (build_t E T n) h o s1 A1 p _
    (build_t_total E T pure_oblivious_bdef (proj1 Ho) (λ d H, proj1 H) (λ d H, proj2 H) (defs s) (config s) n) I1 H1 K1 Hg1 Hf1 Hev) as X.
  by destruct (get_t E T (build_t E T n) h o s1).
Qed.
Print Assumptions C52_total.

(** Not vacuous: the history of [C48_applies], where others drop a builder in the
    middle of a [get] that used it, and make another one. *)
Lemma busy_only n : only pure_oblivious_bdef busy (busy_end n).1.
Proof.
  assert (∀ k, fst <$> (busy_end k).1 = reverse (take k busy_ops) ∨ (busy_end k).1 = []) as Hops.
  { intros k. do 8 (destruct k as [|k]; [left; vm_compute; reflexivity|]). left. vm_compute. reflexivity. }
  assert (∀ x y, (x, y) ∈ (busy_end n).1 → x ∈ busy_ops) as Hin.
  { intros x y Hx. destruct (Hops n) as [He|He]; [|rewrite He in Hx; by apply elem_of_nil in Hx].
    assert (x ∈ reverse (take n busy_ops)) as Hr. { rewrite <- He. apply elem_of_list_fmap. by exists (x, y). }
    rewrite elem_of_reverse in Hr. apply elem_of_take in Hr as (i & Hi & _). by eapply elem_of_list_lookup_2. }
  split_and!.
  - intros t d. unfold busy. repeat case_match; rewrite ?elem_of_cons, ?elem_of_nil; intros H'; try tauto;
      destruct_or?; simplify_eq/=; apply d_leaf_oblivious.
  - intros d y Hd%Hin. unfold busy_ops in Hd. rewrite !elem_of_cons, elem_of_nil in Hd. destruct_or!; simplify_eq/=;
      first [apply d_leaf_oblivious|apply d_top_oblivious|done].
  - intros o f y. split; intros Hd%Hin; unfold busy_ops in Hd; rewrite !elem_of_cons, elem_of_nil in Hd; destruct_or!; done.
Qed.
Theorem C52_applies :
  (∀ n, runs_t env_s busy (busy_end n).1 (busy_end n).2 ∧ only pure_oblivious_bdef busy (busy_end n).1) ∧
  (∃ s', step_t env_s busy 9 (OGet HRef 2%N) (busy_end 3).2 = Done (OutRes (RvVal (VPair (VNum 1) (VNum 2)))) s' ∧
     live_b (busy_end 3).2 0 = true ∧ live_b s' 0 = false ∧ defs (busy_end 3).2 3%N = None ∧ is_Some (defs s' 3%N)) ∧
  (∃ b p', eval (defs (busy_end 3).2) (config (busy_end 3).2) 9 2%N 0 = Some (EvRet (Ok b), p') ∧ bin_val b = VPair (VNum 1) (VNum 2)).
Proof.
  split; [intros n; split; [apply C48_applies|apply busy_only]|]. split.
  - eexists. split; [vm_compute; reflexivity|]. split_and!; [vm_compute; reflexivity..|]. eexists. vm_compute. reflexivity.
  - eexists _, _. split; vm_compute; reflexivity.
Qed.
Print Assumptions C52_applies.
