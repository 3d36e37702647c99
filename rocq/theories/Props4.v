(** Properties: cache transparency (C01).  Vocabulary: EvalSpec.v. *)
From Verif Require Import EvalTotal Demo.
From stdpp Require Import relations.

(** ** C01: cache transparency *)

(** What a getter returns is what some evaluation from scratch gives under the
    dynamic states now in the cache (for builders without one: the initial
    one).  Evaluations differ only in the addresses they give to new bins. *)
Theorem C01_get E n h o s r s' :
  reach_by E pure_op s → step E n (OGet h o) s = Done r s' →
  ∃ x, evals (defs s) (config s) o (EvRet x) ∧ r = OutRes (handed h x).
Proof. intros Hr. apply (get_transparent E n h o s Hr). Qed.
Print Assumptions C01_get.

(** Likewise for panics. *)
Theorem C01_get_panics E n h o s k s' :
  reach_by E pure_op s → step E n (OGet h o) s = Panic k s' →
  evals (defs s) (config s) o EvPanic.
Proof. intros Hr. apply (get_transparent E n h o s Hr). Qed.
Print Assumptions C01_get_panics.

(** What [lookup*] returns, if anything, is not stale either. *)
Theorem C01_lookup E n h o s v s' :
  reach_by E pure_op s → step E n (OLookup h o) s = Done (OutOpt (Some v)) s' →
  ∃ b, evals (defs s) (config s) o (EvRet (Ok b)) ∧ v = conv h b.
Proof.
  intros Hr Hs. pose proof (reach_pure E s Hr) as HP. apply reach_Inv in Hr as [I Hst].
  assert (live s o ∧ how_legal E h = true) as [Hl Hh].
  { cbn [step] in Hs. destruct (promise o s) as [[d a]|] eqn:Hp; [|done].
    destruct (how_legal E h); [|done]. split; [|done]. by apply promise_Some in Hp as [? _]. }
  rewrite (lookup_effect E n h o s I Hl Hh) in Hs. injection Hs as Hs _.
  destruct (cached s o) as [b|] eqn:Hc; [|done]. cbn in Hs. injection Hs as <-. exists b. split; [|done].
  destruct HP as [_ HP]. specialize (HP o b Hc).
  assert (evD (λ _ _, True) (defs s) (config s) o (EvRet (Ok b))) as Hd; [|by apply evD_evals in Hd].
  refine (proj1 (evD_change (depends s) (λ _ _, True) (defs s) (defs s) (config s) (config s) (λ _, False) _ _ _ _) o _ HP _);
    try done. by intros [].
Qed.
Print Assumptions C01_lookup.

(** If builders do not depend on the addresses of bins, there is only one
    answer up to these: every evaluation from scratch agrees with the getter. *)
Theorem C01_get_unique E n h o s r s' x :
  reach_by E pure_oblivious_op s → step E n (OGet h o) s = Done r s' → evals (defs s) (config s) o x →
  ∃ y rv, x = EvRet y ∧ r = OutRes rv ∧ strip_rval rv = strip_rval (handed h y).
Proof.
  intros Hr Hs Hx. destruct (C01_get E n h o s r s' (pure_oblivious_pure E s Hr) Hs) as (y & Hy & ->).
  pose proof (proj1 (evals_det _ _ (reach_oblivious E s Hr)) o _ Hy _ Hx) as Heq.
  destruct x as [z|]; [|done]. cbn in Heq. injection Heq as Heq. exists z, (handed h y). split_and!; [done..|].
  by apply strip_handed.
Qed.
Print Assumptions C01_get_unique.

Theorem C01_get_panics_unique E n h o s k s' x :
  reach_by E pure_oblivious_op s → step E n (OGet h o) s = Panic k s' → evals (defs s) (config s) o x →
  x = EvPanic.
Proof.
  intros Hr Hs Hx. pose proof (C01_get_panics E n h o s k s' (pure_oblivious_pure E s Hr) Hs) as Hy.
  pose proof (proj1 (evals_det _ _ (reach_oblivious E s Hr)) o _ Hy _ Hx) as Heq. by destruct x.
Qed.
Print Assumptions C01_get_panics_unique.

(** With the evaluator as a program: if evaluating [o] from scratch ends with
    [x], a getter with the same bound on the nesting of builds ends, with that
    very answer.  ([Illegal]: a builder resolves a builder that is dropped,
    which its ownership of blueprints excludes, or asks a boxed cache for a
    bin.) *)
Theorem C01_total E n h o s p x p' :
  reach_by E pure_oblivious_op s → eval (defs s) (config s) n o p = Some (x, p') →
  match step E n (OGet h o) s with
  | Done r _ => ∃ y rv, x = EvRet y ∧ r = OutRes rv ∧ strip_rval rv = strip_rval (handed h y)
  | Panic _ _ => x = EvPanic
  | NoFuel => False
  | Illegal => True
  end.
Proof.
  intros Hr Hev. pose proof (get_total E n h o s p _ Hr Hev) as Hnf. apply eval_sound in Hev.
  destruct (step E n (OGet h o) s) as [r s'|k s'| |] eqn:Hs; try done.
  - by eapply C01_get_unique.
  - by eapply C01_get_panics_unique.
Qed.
Print Assumptions C01_total.

(** The diamond, after the configuration of the leaf was changed, something
    was dropped, and the garbage was collected. *)
Lemma d_leaf_oblivious v : pure_prog (bd_body (d_leaf v)) ∧ oblivious (bd_body (d_leaf v)).
Proof. split; [done|]. constructor. intros w. constructor; [done|]. intros. by constructor. Qed.
Lemma d_mid_oblivious w : pure_prog (bd_body (d_mid w)) ∧ oblivious (bd_body (d_mid w)).
Proof.
  split; [by intros []|]. constructor. intros x x' Hx. destruct x as [b|v|e], x' as [b'|v'|e']; try done.
  - constructor. cbn in *. congruence.
  - injection Hx as Hx. constructor; [cbn; congruence|]. intros. constructor. cbn. unfold strip_bin. cbn. congruence.
  - injection Hx as Hx. constructor. cbn. congruence.
Qed.
Lemma d_top_oblivious w1 w2 : pure_prog (bd_body (d_top w1 w2)) ∧ oblivious (bd_body (d_top w1 w2)).
Proof.
  split; [by intros [] []|]. constructor. intros x x' Hx. constructor. intros y y' Hy.
  destruct x as [b|v|e], x' as [b'|v'|e']; try done; try (by constructor);
    destruct y as [c|w|f], y' as [c'|w'|f']; try done; try (by constructor).
  injection Hx as Hx. injection Hy as Hy. constructor; [cbn; congruence|]. intros. constructor. cbn. unfold strip_bin. cbn. congruence.
Qed.
Definition dia_later : list op := dia_ops ++ [ODynStateMut 0 (λ _, VNum 5); ODrop 4; OGc]%N.
Definition s_later := after env_s 10 dia_later.
Lemma later_oblivious : reach_by env_s pure_oblivious_op s_later.
Proof.
  apply after_by. repeat (apply List.Forall_cons; [intros s|]); [..|apply List.Forall_nil]; try done;
    first [apply d_leaf_oblivious|apply d_mid_oblivious|apply d_top_oblivious].
Qed.
Example C01_applies :
  (∃ p', eval (defs s_later) (config s_later) 10 3 50 = Some (EvRet (Ok (Bin 54 (VPair (VSome (VNum 5)) (VSome (VNum 5))))), p')) ∧
  answer_to env_s 10 dia_later (OGet HRef 3) = Some (Returned (OutRes (RvVal (VPair (VSome (VNum 5)) (VSome (VNum 5)))))) ∧
  answer_to env_s 10 dia_later (OLookup HRef 3) = Some (Returned (OutOpt None)).
Proof. split_and!; [eexists|..]; vm_compute; reflexivity. Qed.
