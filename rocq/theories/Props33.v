(** C66: builders that make builders (artifacts that are blueprints).  Vocabulary:
    MakeSpec.v ([gives], [making_op], [users], [correspond]), EvalSpec.v ([defs], [config],
    [handed]). *)
From Verif Require Import MakeFacts Facts1 Demo.
From stdpp Require Import relations.

(** ** What is answered is what evaluation from scratch gives *)
(** [par] says who made whom.  The builders there were have the definitions and the states
    they had. *)
Theorem C66_get E l n h o s r s' :
  runs E making_op init_st l s → step E n (OGet h o) s = Done r s' →
  ∃ par x, gives (defs s') (config s') par o (EvRet x) ∧ r = OutRes (handed h x) ∧
    (∀ w, users l w → par w = None) ∧
    (∀ w d, defs s w = Some d → defs s' w = Some d ∧ config s' w = config s w).
Proof.
  intros Hr Hs. destruct (runs_make E l s Hr) as (par & HI & Hu). destruct (runs_Inv E _ _ l s Hr Inv_init eq_refl) as [I Hst].
  destruct (get_make E par n h o s I HI) as [H1 _]. cbn [step] in Hs.
  destruct (get E n h o s) as [rv s1|k s1| |]; try done. injection Hs as <- ->.
  destruct (H1 _ _ eq_refl) as (par' & HI' & G & x & Hx & ->). exists par', x. split_and!; [by apply mvD_gives in Hx|done| |].
  - intros w Hw. destruct (Hu w Hw) as [Hn [y Hy]]. destruct G as (_ & _ & _ & A4). by rewrite (A4 w y Hy).
  - intros w d (a & Hw)%defs_objs. destruct G as (A1 & A2 & _). split; [eapply objs_defs; by apply A1|by eapply A2].
Qed.
Print Assumptions C66_get.
Theorem C66_get_panics E l n h o s k s' :
  runs E making_op init_st l s → step E n (OGet h o) s = Panic k s' →
  ∃ par, gives (defs s') (config s') par o EvPanic ∧
    (∀ w, users l w → par w = None) ∧
    (∀ w d, defs s w = Some d → defs s' w = Some d ∧ config s' w = config s w).
Proof.
  intros Hr Hs. destruct (runs_make E l s Hr) as (par & HI & Hu). destruct (runs_Inv E _ _ l s Hr Inv_init eq_refl) as [I Hst].
  destruct (get_make E par n h o s I HI) as [_ H1]. cbn [step] in Hs.
  destruct (get E n h o s) as [rv s1|k1 s1| |]; try done. injection Hs as -> ->.
  destruct (H1 _ _ eq_refl) as (par' & HI' & G & Hx). exists par'. split_and!; [by apply mvD_gives in Hx| |].
  - intros w Hw. destruct (Hu w Hw) as [Hn [y Hy]]. destruct G as (_ & _ & _ & A4). by rewrite (A4 w y Hy).
  - intros w d (a & Hw)%defs_objs. destruct G as (A1 & A2 & _). split; [eapply objs_defs; by apply A1|by eapply A2].
Qed.
Print Assumptions C66_get_panics.
(** Nothing in the cache is stale. *)
Theorem C66_lookup E l n h o s v s' :
  runs E making_op init_st l s → step E n (OLookup h o) s = Done (OutOpt (Some v)) s' →
  ∃ par b, gives (defs s) (config s) par o (EvRet (Ok b)) ∧ v = conv h b ∧ (∀ w, users l w → par w = None).
Proof.
  intros Hr Hs. destruct (runs_make E l s Hr) as (par & HI & Hu). destruct (runs_Inv E _ _ l s Hr Inv_init eq_refl) as [I Hst].
  assert (live s o ∧ how_legal E h = true) as [Hl Hh].
  { cbn [step] in Hs. destruct (promise o s) as [[d a]|] eqn:Hp; [|done].
    destruct (how_legal E h); [|done]. split; [|done]. by apply promise_Some in Hp as [? _]. }
  rewrite (lookup_effect E n h o s I Hl Hh) in Hs. injection Hs as Hs _.
  destruct (cached s o) as [b|] eqn:Hc; [|done]. cbn in Hs. injection Hs as <-. exists par, b.
  split_and!; [by apply (proj2 HI), mvD_gives in Hc|done|]. intros w Hw. by apply Hu.
Qed.
Print Assumptions C66_lookup.

(** Evaluation gives one answer only, up to addresses of bins and names of the builders
    made: two corresponding worlds of builders (say, of two caches) give corresponding
    answers. *)
Theorem C66_unique R B B' σ σ' par par' o o' r r' :
  correspond R B B' σ σ' par par' → R o o' → gives B σ par o r → gives B' σ' par' o' r' → same_eres R r r'.
Proof. intros Hc Ho H H'. exact (proj1 (gives_same R B B' σ σ' par par' Hc) o r H o' r' Ho H'). Qed.
Print Assumptions C66_unique.

(** For builders that make none this is the evaluation of C01. *)
Theorem C66_pure B σ par o r :
  (∀ o d, B o = Some d → pure_prog (bd_body d)) → gives B σ par o r ↔ evals B σ o r.
Proof.
  intros HB. split.
  - assert ((∀ o r, gives B σ par o r → evals B σ o r) ∧
      (∀ u v X c r, gives_body B σ par u v X c r → pure_prog c → evals_body B σ v c r)) as [H _]; [|apply H].
    apply (gives_both B σ par (λ o r _, evals B σ o r) (λ u v X c r _, pure_prog c → evals_body B σ v c r));
      cbn [pure_prog]; intros; try done; try (by econstructor; eauto).
  - assert ((∀ o r, evals B σ o r → gives B σ par o r) ∧
      (∀ v c r, evals_body B σ v c r → ∀ u X, gives_body B σ par u v X c r)) as [H _]; [|apply H].
    apply (evals_both B σ (λ o r _, gives B σ par o r) (λ v c r _, ∀ u X, gives_body B σ par u v X c r));
      intros; by econstructor; eauto.
Qed.
Print Assumptions C66_pure.

(** ** Towers of builders of any height, as in src/multi_level_test.rs *)
(** A builder whose artifact is a blueprint of a builder whose artifact is a blueprint of
    ... of a leaf ([BuilderBuilder], [SuperBuilder]). *)
Fixpoint level (n : nat) (v : val) : bdef :=
  match n with
  | O => d_leaf v
  | S n => BDef (N.of_nat n + 10) 0 (Some VUnit) (PNew (level n v) (λ o, PNewBin (VObj o) (λ b, PRet (Ok b))))
  end.
Lemma level_making n v : making_def (level n v).
Proof. induction n as [|n IH]; cbn; [done|]. split; [exact IH|done]. Qed.

(** Getting one gives a blueprint of the level below which the user did not make. *)
Theorem C66_level E l n m v o s r s' :
  runs E making_op init_st l s → defs s o = Some (level (S m) v) → step E n (OGet HCloned o) s = Done r s' →
  ∃ o', r = OutRes (RvVal (VObj o')) ∧ defs s' o' = Some (level m v) ∧ ¬ users l o'.
Proof.
  intros Hr Hd Hs. destruct (C66_get E l n HCloned o s r s' Hr Hs) as (par & x & Hx & -> & Hu & Hold).
  destruct (Hold o _ Hd) as [Hd' _].
  inversion Hx as [|? d w ? Hdo _ Hb]; subst. rewrite Hdo in Hd'. injection Hd' as ->. cbn [bd_body level] in Hb.
  inversion Hb as [| | | | | |? ? ? ? ? o' ? Ho Hp _ Hb1|]; subst.
  inversion Hb1 as [| | | | |? ? ? ? ? ? ? Hb2| |]; subst. inversion Hb2; subst.
  exists o'. split_and!; [done..|]. intros Hus. apply Hu in Hus. congruence.
Qed.
Print Assumptions C66_level.
(** A leaf gives its state. *)
Theorem C66_leaf E l n v w o s r s' :
  runs E making_op init_st l s → defs s o = Some (level 0 v) → config s o = Some w →
  step E n (OGet HCloned o) s = Done r s' → r = OutRes (RvVal w).
Proof.
  intros Hr Hd Hw Hs. destruct (C66_get E l n HCloned o s r s' Hr Hs) as (par & x & Hx & -> & _ & Hold).
  destruct (Hold o _ Hd) as [Hd' Hw']. rewrite Hw in Hw'.
  inversion Hx as [? ? _ Hn|? d w' ? Hdo Hwo Hb]; subst. rewrite Hdo in Hd'. injection Hd' as ->. rewrite Hwo in Hw'. injection Hw' as ->.
  cbn in Hb. inversion Hb as [| | | |? ? ? ? ? Hb1| | |]; subst. inversion Hb1 as [| | | | |? ? ? ? ? ? ? Hb2| |]; subst.
  by inversion Hb2; subst.
Qed.
Print Assumptions C66_leaf.
(** If it is not in the cache, the blueprint is a new one; if it is, it is the one there. *)
Theorem C66_level_new E l n m v o s r s' :
  runs E making_op init_st l s → defs s o = Some (level (S m) v) → step E n (OGet HCloned o) s = Done r s' →
  match cached s o with
  | None => ∃ o', r = OutRes (RvVal (VObj o')) ∧ defs s o' = None
  | Some b => r = OutRes (RvVal (bin_val b)) ∧ s' = s
  end.
Proof.
  intros Hr Hd Hs. destruct (runs_Inv E _ _ l s Hr Inv_init eq_refl) as [I Hst]. cbn [step] in Hs.
  unfold get, get_with in Hs. destruct (promise o s) as [[d a]|] eqn:Hp; [|done]. destruct (how_legal E HCloned); [|done].
  rewrite (lookup_art_ok _ o s d a I Hp), (live_cached s o d a I Hp) in *.
  destruct (artifacts (ch s) !! a) as [e|] eqn:He; [by injection Hs as <- <-|]. cbn [option_map fmap option_fmap].
  destruct n as [|n]; [done|]. cbn [build] in Hs. rewrite Hp in Hs.
  apply promise_Some in Hp as Hp'. destruct Hp' as [Hal Ho]. rewrite (objs_defs s o d a Ho) in Hd. injection Hd as ->.
  cbn [level] in Hs. unfold contains_artifact in Hs. rewrite He in Hs.
  rewrite (bool_decide_eq_false_2 (is_Some None)), andb_false_r in Hs by (by intros [? ?]).
  destruct (ensure_dyn_state _ _ _ _ _) as [c2 [k|w]] eqn:Hen; [done|].
  cbn [exec] in Hs. destruct (alloc _ _ _) as [[o' s1]|] eqn:Ha; [|done].
  apply alloc_Some in Ha as (-> & -> & _). cbn in Hs. rewrite lookup_insert in Hs. cbn in Hs. rewrite N.eqb_refl in Hs.
  injection Hs as <- _. eexists. split; [done|]. unfold defs.
  destruct (objs s !! nobj s) eqn:Hq; [|done]. apply (i_num _ I) in Hq. lia.
Qed.
Print Assumptions C66_level_new.

(** ** Example: three levels, and clearing the cache in between *)
Definition tower_ops : list op := [OAlloc (level 2 (VNum 7)); OGet HCloned 0; OGet HCloned 1; OGet HCloned 2].
Example tower_answers :
  fst <$> run env_s 5 (tower_ops ++ [OClearAll; OGet HCloned 0; OGet HCloned 1; OGet HCloned 4; OGet HCloned 2]) init_st =
  Some [Returned (OutObj 0); Returned (OutRes (RvVal (VObj 1))); Returned (OutRes (RvVal (VObj 2))); Returned (OutRes (RvVal (VNum 7)));
        Returned OutUnit;
        Returned (OutRes (RvVal (VObj 3))); Returned (OutRes (RvVal (VObj 4))); Returned (OutRes (RvVal (VNum 7)));
        Returned (OutRes (RvVal (VNum 7)))].
Proof. vm_compute. reflexivity. Qed.
Lemma run_making E fuel l s rs s' l0 :
  runs E making_op init_st l0 s → Forall (λ x, ∀ s, making_op s x) l →
  run E fuel l s = Some (rs, s') → ∃ h, runs E making_op init_st h s'.
Proof.
  revert s l0 rs. induction l as [|x l IH]; intros s l0 rs Hr Hf; cbn [run]; [intros [= _ <-]; by exists l0|].
  apply Forall_cons in Hf as [Hx Hf]. destruct (step E fuel x s) as [r s1|k s1| |] eqn:Hs; try done.
  - destruct (run E fuel l s1) as [[rs1 s2]|] eqn:Hrun; [|done]. intros [= _ ->].
    eapply (IH s1); [eapply runs_done; [exact Hr|apply Hx|exact Hs]|done|exact Hrun].
  - destruct (resumable k) eqn:Hk; [|done].
    destruct (run E fuel l (unwound s1)) as [[rs1 s2]|] eqn:Hrun; [|done]. intros [= _ ->].
    eapply (IH (unwound s1)); [eapply runs_panic; [exact Hr|apply Hx|exact Hs|exact Hk]|done|exact Hrun].
Qed.
(** The hypotheses of the theorems hold of that history: the top of the tower is there,
    with the two levels the cache has made below it. *)
Definition tower_st : st := match run env_s 5 tower_ops init_st with Some (_, s) => s | None => init_st end.
Example C66_example :
  (∃ l, runs env_s making_op init_st l tower_st) ∧ defs tower_st 0 = Some (level 2 (VNum 7)) ∧ defs tower_st 1 = Some (level 1 (VNum 7)) ∧
    defs tower_st 2 = Some (level 0 (VNum 7)) ∧ config tower_st 2 = Some (VNum 7) ∧
    match step env_s 5 (OGet HCloned 0) tower_st with Done r _ => r = OutRes (RvVal (VObj 1)) | _ => False end.
Proof.
  split.
  - assert (match run env_s 5 tower_ops init_st with Some _ => true | None => false end = true) as Hok by (vm_compute; reflexivity).
    unfold tower_st. destruct (run env_s 5 tower_ops init_st) as [[rs s]|] eqn:Hr; [|done].
    refine (run_making env_s 5 tower_ops init_st rs s [] _ _ Hr); [constructor|].
    unfold tower_ops. constructor; [intros s0; apply (level_making 2)|]. do 3 (constructor; [intros s0; exact Logic.I|]). constructor.
  - split_and!; vm_compute; reflexivity.
Qed.

(** Two caches with a tower each, under different names. *)
Lemma level_acts R n v : same_val R v v → acts_as_def R (level n v) (level n v).
Proof.
  intros Hv. induction n as [|n IH]; cbn.
  - constructor; [by constructor|]. constructor. intros w w' Hw. constructor; [done|]. intros p p'. do 2 constructor. done.
  - constructor; [by repeat constructor|]. constructor; [done|]. intros o o' Ho. constructor; [by constructor|].
    intros p p'. do 2 constructor. by constructor.
Qed.
Definition two_defs (a b : obj) (o : obj) : option bdef :=
  if decide (o = a) then Some (level 1 (VNum 7)) else if decide (o = b) then Some (level 0 (VNum 7)) else None.
Definition two_states (a b : obj) (o : obj) : option val :=
  if decide (o = a) then Some VUnit else if decide (o = b) then Some (VNum 7) else None.
Definition two_par (a b : obj) (o : obj) : option obj := if decide (o = b) then Some a else None.
Definition two_rel (o o' : obj) : Prop := (o = 0 ∧ o' = 5)%N ∨ (o = 1 ∧ o' = 9)%N.
Example C66_unique_example :
  correspond two_rel (two_defs 0 1) (two_defs 5 9) (two_states 0 1) (two_states 5 9) (two_par 0 1) (two_par 5 9) ∧
  gives (two_defs 0 1) (two_states 0 1) (two_par 0 1) 0%N (EvRet (Ok (Bin 3 (VObj 1)))) ∧
  gives (two_defs 5 9) (two_states 5 9) (two_par 5 9) 5%N (EvRet (Ok (Bin 4 (VObj 9)))).
Proof.
  split_and!.
  - split.
    + intros o o' d d' [[-> ->]|[-> ->]]; vm_compute; intros [= <-] [= <-]; [apply (level_acts _ 1)|apply (level_acts _ 0)]; constructor.
    + intros o o' [[-> ->]|[-> ->]]; vm_compute; repeat constructor.
    + intros u u' o o' d d' _ Hp Hp' _ _ _. unfold two_par in *. repeat case_decide; try done. by right.
  - eapply gv_body; [reflexivity|reflexivity|]. eapply (gb_new _ _ _ _ _ _ _ _ 1%N); [reflexivity|reflexivity|apply not_elem_of_nil|].
    eapply gb_newbin. constructor.
  - eapply gv_body; [reflexivity|reflexivity|]. eapply (gb_new _ _ _ _ _ _ _ _ 9%N); [reflexivity|reflexivity|apply not_elem_of_nil|].
    eapply gb_newbin. constructor.
Qed.
