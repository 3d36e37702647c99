(** C65: builders that look at the outside world, and a user who invalidates whoever
    notices when it changes.  Vocabulary: WorldSpec.v ([informed], [facing_defs], [hears],
    [unnoticed]), EvalSpec.v ([evals], [config], [handed]), MinSpec.v ([wanted], [has]). *)
From Verif Require Import WorldFacts Facts1 Demo.
From Verif Require Props4 Props18.
From stdpp Require Import relations.

(** ** What is answered: the builders evaluated from scratch, in the present world *)
Theorem C65_get E w n h o s r s' :
  informed E w s → step E n (OGet h o) s = Done r s' → hears E w s s' →
  ∃ x, evals (facing_defs s w) (config s) o (EvRet x) ∧ r = OutRes (handed h x).
Proof.
  intros Hi Hs Hh. pose proof (informed_inv E w s Hi) as WI. cbn [step] in Hs.
  destruct (get E n h o s) as [rv s1|k s1| |] eqn:Hg; try done. injection Hs as <- ->.
  destruct (get_world E w n h o s s' WI) as (A1 & A2 & A3 & A4 & _); [left; eauto|done|].
  destruct (A4 rv Hg) as (x & Hx & ->). exists x. split; [|done].
  refine (fits_eval _ _ (tell w (tick s) s') o _ _ Hx). intros v. rewrite tell_defs, tell_config, A3.
  unfold facing_defs, defs. by rewrite A2.
Qed.
Print Assumptions C65_get.
Theorem C65_get_panics E w n h o s k s' :
  informed E w s → step E n (OGet h o) s = Panic k s' → hears E w s s' → evals (facing_defs s w) (config s) o EvPanic.
Proof.
  intros Hi Hs Hh. pose proof (informed_inv E w s Hi) as WI. cbn [step] in Hs.
  destruct (get E n h o s) as [rv s1|k1 s1| |] eqn:Hg; try done. injection Hs as -> ->.
  destruct (get_world E w n h o s s' WI) as (A1 & A2 & A3 & _ & A4); [right; eauto|done|].
  refine (fits_eval _ _ (tell w (tick s) s') o _ _ (A4 k Hg)). intros v. rewrite tell_defs, tell_config, A3.
  unfold facing_defs, defs. by rewrite A2.
Qed.
Print Assumptions C65_get_panics.

Lemma informed_cached E w s o b :
  informed E w s → cached s o = Some b → evals (facing_defs s w) (config s) o (EvRet (Ok b)).
Proof.
  intros Hi Hc. pose proof (informed_inv E w s Hi) as [I Hst Hl HP].
  rewrite <- (tell_cached w (tick s)) in Hc. apply (proj2 HP) in Hc.
  exact (fits_eval _ _ (tell w (tick s) s) o _ (facing_fits w (tick s) s) Hc).
Qed.
(** Lookups as well: nothing in the cache is out of date. *)
Theorem C65_lookup E w n h o s v s' :
  informed E w s → step E n (OLookup h o) s = Done (OutOpt (Some v)) s' →
  ∃ b, evals (facing_defs s w) (config s) o (EvRet (Ok b)) ∧ v = conv h b.
Proof.
  intros Hi Hs. pose proof (informed_inv E w s Hi) as [I Hst Hl HP].
  assert (live s o ∧ how_legal E h = true) as [Hlv Hhl].
  { cbn [step] in Hs. destruct (promise o s) as [[d a]|] eqn:Hpr; [|done].
    destruct (how_legal E h); [|done]. split; [|done]. by apply promise_Some in Hpr as [? _]. }
  rewrite (lookup_effect E n h o s I Hlv Hhl) in Hs. injection Hs as Hs _.
  destruct (cached s o) as [b|] eqn:Hc; [|done]. cbn in Hs. injection Hs as <-. exists b. split; [|done].
  by eapply informed_cached.
Qed.
Print Assumptions C65_lookup.

(** There is only one answer, up to addresses of bins... *)
Theorem C65_unique E w s o x y :
  informed E w s → evals (facing_defs s w) (config s) o x → evals (facing_defs s w) (config s) o y → strip_eres x = strip_eres y.
Proof.
  intros Hi Hx Hy. pose proof (informed_inv E w s Hi) as [I Hst Hl HP].
  exact (proj1 (evals_det _ _ (λ o d, facing_oblivious w s o d Hl)) o _ Hx _ Hy).
Qed.
Print Assumptions C65_unique.
(** ...and a getter finds it, if evaluation does and the world does not change meanwhile. *)
Theorem C65_total E w n h o s p x p' :
  informed E w s → (∀ t, tick s ≤ t → e_ask E t = w) → eval (facing_defs s w) (config s) n o p = Some (x, p') →
  match step E n (OGet h o) s with
  | Done r _ => ∃ y rv, x = EvRet y ∧ r = OutRes rv ∧ strip_rval rv = strip_rval (handed h y)
  | Panic _ _ => x = EvPanic
  | NoFuel => False
  | Illegal => True
  end.
Proof.
  intros Hi Hh Hev. pose proof (informed_inv E w s Hi) as [I Hst Hl HP]. pose proof Hev as Hx. apply eval_sound in Hx.
  assert (∀ s', hears E w s s') as Hhs by (intros s' t [Ht _]; auto).
  assert (step E n (OGet h o) s ≠ NoFuel) as Hnf.
  { pose proof (get_with_total E (facing_defs s w) (config s) n (build E n) h o (tell w (tick s) s) p _
      (build_total E _ _ (λ o d, facing_oblivious w s o d Hl) n) (tell_Inv w _ s I) HP (facing_fits w _ s) Hev) as H.
    fold (get E n h o (tell w (tick s) s)) in H.
    rewrite (get_told E w n h o s (tick s) Hl) in H by (intros t Ht _; auto).
    cbn [step]. by destruct (get E n h o s). }
  destruct (step E n (OGet h o) s) as [r s'|k s'| |] eqn:Hs; try done.
  - destruct (C65_get E w n h o s r s' Hi Hs (Hhs s')) as (y & Hy & ->).
    pose proof (C65_unique E w s o _ _ Hi Hy Hx) as Heq. destruct x as [z|]; [|done]. cbn in Heq. injection Heq as Heq.
    exists z, (handed h y). split_and!; [done..|]. by apply strip_handed.
  - pose proof (C65_get_panics E w n h o s k s' Hi Hs (Hhs s')) as Hy. pose proof (C65_unique E w s o _ _ Hi Hy Hx) as Heq. by destruct x.
Qed.
Print Assumptions C65_total.

(** ** What is built: exactly whom it needs in the present world and the cache has not *)
Theorem C65_called E w n h o s r s' v :
  informed E w s → step E n (OGet h o) s = Done r s' → hears E w s s' →
  calls s v < calls s' v ↔ wanted (facing_defs s w) (config s) (has s) o v.
Proof.
  intros Hi Hs Hh. pose proof (informed_inv E w s Hi) as [I Hst Hl HP]. set (M := tell w (tick s) s) in *.
  pose proof (get_ran E (facing_defs s w) (config s) (λ o d, facing_oblivious w s o d Hl) n h o M
    (tell_Inv w _ s I) HP (facing_fits w _ s)) as [H1 _].
  cbn [step] in Hs. destruct (get E n h o s) as [rv s1|k s1| |] eqn:Hg; try done. injection Hs as _ ->.
  unfold M in H1. rewrite (get_told E w n h o s (tick s) Hl) in H1.
  2:{ rewrite Hg. intros t Ht1 Ht2. apply Hh. lia. }
  rewrite Hg in H1. destruct (H1 _ _ eq_refl) as (l & Hl' & N). cbn [trace tell] in Hl'. rewrite (Props18.called_in s s' l v Hl').
  assert (∀ z, has M z ↔ has s z) as Hhas by (intros z; unfold has, M; by rewrite tell_cached).
  split.
  - intros Hw. destruct (rn_called _ _ _ _ _ _ N v Hw) as (z & -> & Hx). eapply wanted_mono; [|exact Hx]. apply Hhas.
  - induction 1 as [Hn|u v _ IH Ha Hn].
    + destruct (rn_all _ _ _ _ _ _ N o eq_refl) as [?%Hhas|?]; done.
    + destruct (rn_closed _ _ _ _ _ _ N u v IH Ha) as [?%Hhas|?]; done.
Qed.
Print Assumptions C65_called.

(** ** What the user has to do when the world changes: invalidate those builders known to
    the cache that notice. *)
Lemma known_depends s u o : depends s u o → knows s o.
Proof. intros (du & ua & dw & wa & X & H1 & H2 & H3 & H4 & H5 & H6). exists dw, wa. done. Qed.
Definition quiet (s : st) (o : obj) : Prop := cached s o = None ∧ ∀ u, ¬ depends s u o.
Lemma quiet_affected s o u : quiet s o → affected s o u → cached s u = None.
Proof. intros [H1 H2] Ha. inversion Ha as [|? y ? Hd]; subst; [done|]. by apply H2 in Hd. Qed.
Lemma forgets_quiet s F G s' o : forgets s F G s' → F o ∨ quiet s o → quiet s' o.
Proof.
  intros Hf Ho. split.
  - destruct Ho as [HF|[Hc _]]; [by apply (fg_gone _ _ _ _ Hf)|].
    destruct (cached s' o) as [b|] eqn:Hb; [|done].
    assert (¬ F o) as HF by (intros HF; rewrite (fg_gone _ _ _ _ Hf o HF) in Hb; done).
    rewrite (fg_kept _ _ _ _ Hf o HF) in Hb. congruence.
  - intros u Hu. apply (fg_depends _ _ _ _ Hf) in Hu as (Hu & _ & HF). destruct Ho as [?|[_ Hn]]; [done|]. by apply (Hn u).
Qed.
Lemma unwound_done s : stack s = [] → unwound s = s.
Proof. destruct s. cbn. by intros ->. Qed.
Lemma invalidate_all E w n l s rs s' :
  informed E w s → run E n (OInvalidate <$> l) s = Some (rs, s') →
  informed E w s' ∧ objs s' = objs s ∧ (∀ o, o ∈ l ∨ quiet s o → quiet s' o).
Proof.
  revert s rs. induction l as [|o l IH]; intros s rs Hi; cbn [fmap list_fmap run].
  { intros [= _ <-]. split_and!; [done..|]. intros o [?%elem_of_nil|?]; done. }
  pose proof (informed_inv E w s Hi) as [I Hst Hl HP].
  assert (∀ s1, goes (step E n (OInvalidate o) s) s1 →
    informed E w (unwound s1) ∧ objs s1 = objs s ∧ ∀ v, v = o ∨ quiet s v → quiet (unwound s1) v) as Hstep.
  { intros s1 Hg. split; [by eapply informed_call; [exact Hi| |exact Hg|]|].
    destruct (step_effect E n _ s s1 I Hst Hg) as (_ & Hf & _). split; [apply (fg_objs _ _ _ _ Hf)|].
    intros v Hv. assert (quiet s1 v) as Hq by (eapply forgets_quiet; [exact Hf|]; destruct Hv as [->|?]; [left; apply rtc_refl|by right]).
    exact Hq. }
  assert (∀ s1 rs1, goes (step E n (OInvalidate o) s) s1 → run E n (OInvalidate <$> l) (unwound s1) = Some (rs1, s') →
    informed E w s' ∧ objs s' = objs s ∧ (∀ v, v ∈ o :: l ∨ quiet s v → quiet s' v)) as Hgo.
  { intros s1 rs1 Hg Hr. destruct (Hstep s1 Hg) as (H1 & H2 & H3). destruct (IH _ _ H1 Hr) as (H4 & H5 & H6).
    split_and!; [done|by rewrite H5|]. intros v Hv. apply H6. rewrite elem_of_cons in Hv.
    destruct Hv as [[->|?]|?]; [right|left|right]; auto. }
  destruct (step E n (OInvalidate o) s) as [r s1|k s1| |] eqn:Hs; try done.
  - destruct (step_Inv E n _ s r s1 I Hst Hs) as [_ Hst1].
    destruct (run E n _ s1) as [[rs1 s2]|] eqn:Hr; [|done]. intros [= _ ->].
    apply (Hgo s1 rs1); [left; eauto|]. by rewrite unwound_done.
  - destruct (resumable k) eqn:Hk; [|done].
    destruct (run E n _ (unwound s1)) as [[rs1 s2]|] eqn:Hr; [|done]. intros [= _ ->].
    apply (Hgo s1 rs1); [right; eauto|done].
Qed.
Theorem C65_refresh E w w' n l s rs s' :
  informed E w s → (∀ o d, knows s o → defs s o = Some d → o ∈ l ∨ unnoticed w w' d) →
  run E n (OInvalidate <$> l) s = Some (rs, s') → informed E w' s'.
Proof.
  intros Hi Hn Hr. destruct (invalidate_all E w n l s rs s' Hi Hr) as (Hi' & Ho & Hq).
  pose proof (informed_inv E w s Hi) as [I Hst Hl HP].
  apply (informed_change E w); [done|]. intros o d Hd. unfold defs in Hd. rewrite Ho in Hd. fold (defs s o) in Hd.
  assert (knows s o ∨ quiet s o) as [Hk|Hk].
  { unfold defs in Hd. destruct (objs s !! o) as [[d0 a]|] eqn:Hx; [|done].
    destruct (decide (known (ch s) !! a = Some o)) as [Hk|Hk]; [left; exists d0, a; done|right].
    assert (¬ knows s o) as Hnk by (intros (d1 & a1 & H1 & H2); unfold at_addr in H1; congruence).
    split.
    - unfold cached. rewrite Hx. by rewrite decide_False by done.
    - intros u Hu. by apply Hnk, (known_depends s u). }
  - destruct (Hn o d Hk Hd) as [Hin|?]; [right|by left]. intros u Hu. eapply quiet_affected; [apply Hq; by left|done].
  - right. intros u Hu. eapply quiet_affected; [apply Hq; by right|done].
Qed.
Print Assumptions C65_refresh.
(** Or to clear the artifacts: then anything may have changed. *)
Theorem C65_clear E w w' n x s r s' :
  informed E w s → x = OClearArtifacts ∨ x = OClearAll → step E n x s = Done r s' → informed E w' s'.
Proof.
  intros Hi Hx Hs. pose proof (informed_inv E w s Hi) as [I Hst Hl HP].
  assert (goes (step E n x s) s') as Hg by (left; eauto).
  destruct (step_Inv E n x s r s' I Hst Hs) as [_ Hst'].
  assert (∃ G, forgets s (λ _, True) G s') as [G Hf].
  { destruct Hx as [-> | ->]; destruct (step_effect E n _ s s' I Hst Hg) as [Hf _]; eauto. }
  apply (informed_change E w).
  - rewrite <- (unwound_done s' Hst'). eapply informed_call; [exact Hi| |exact Hg|]; by destruct Hx as [-> | ->].
  - intros o d _. right. intros u _. by apply (fg_gone _ _ _ _ Hf).
Qed.
Print Assumptions C65_clear.
(** A change nobody notices needs nothing. *)
Theorem C65_unnoticed E w w' s :
  informed E w s → (∀ o d, defs s o = Some d → unnoticed w w' d) → informed E w' s.
Proof. intros Hi H. apply (informed_change E w); [done|]. intros o d Hd. left. by eapply H. Qed.
Print Assumptions C65_unnoticed.

(** ** Builders that do not look: nothing is asked, and these are the histories of C01 *)
Definition bld_still (bld : obj → st → outcome bres) : Prop :=
  ∀ o s s', (∀ o d a, objs s !! o = Some (d, a) → pure_prog (bd_body d)) → ends (bld o s) s' → objs s' = objs s ∧ tick s' = tick s.
Lemma get_with_still E bld h o s s' :
  bld_still bld → (∀ o d a, objs s !! o = Some (d, a) → pure_prog (bd_body d)) →
  ends (get_with E bld h o s) s' → objs s' = objs s ∧ tick s' = tick s.
Proof.
  intros Hb Hl. unfold get_with. destruct (promise o s) as [[d a]|]; [|by intros [[? ?]|[? ?]]].
  destruct (how_legal E h); [|by intros [[? ?]|[? ?]]].
  destruct (lookup_art _ _ _ _) as [k| |b].
  - by intros [[? ?]|[? [= _ <-]]].
  - pose proof (Hb o s) as H. destruct (bld o s) as [[e|e] s1|k s1| |]; [..|by intros [[? ?]|[? ?]]|by intros [[? ?]|[? ?]]].
    + destruct (_ =? _)%N; [intros [[? [= _ <-]]|[? ?]]|intros [[? ?]|[? [= _ <-]]]]; try done; (apply H; [done|left; eauto]).
    + intros [[? [= _ <-]]|[? ?]]; [|done]. apply H; [done|left; eauto].
    + intros [[? ?]|[? [= _ <-]]]; [done|]. apply H; [done|right; eauto].
  - by intros [[? [= _ <-]]|[? ?]].
Qed.
Lemma exec_still E bld u ua t :
  bld_still bld → ∀ p s s', pure_prog p → (∀ o d a, objs s !! o = Some (d, a) → pure_prog (bd_body d)) →
  ends (exec E bld u ua t p s) s' → objs s' = objs s ∧ tick s' = tick s.
Proof.
  intros Hb p. induction p as [r| |h v k IH|k IH|v' p IH|k IH|v' k IH|d k IH|v p IH]; intros s s' Hp Hl; cbn [exec pure_prog] in *; try done.
  - by intros [[? [= _ <-]]|[? ?]].
  - by intros [[? ?]|[? [= _ <-]]].
  - unfold resolve_with. destruct (promise v s) as [[d wa]|]; [|by intros [[? ?]|[? ?]]].
    destruct (track_dependency _ _ _ _ _) as [c|pk c|]; [|by intros [[? ?]|[? [= _ <-]]]|by intros [[? ?]|[? ?]]].
    set (s1 := log (EResolve u v) (set_ch c s)). pose proof (get_with_still E bld h v s1) as H.
    destruct (get_with E bld h v s1) as [rv s2|pk s2| |]; [..|by intros [[? ?]|[? ?]]|by intros [[? ?]|[? ?]]].
    + destruct (H s2 Hb Hl) as [H1 H2]; [left; eauto|]. intros He. apply IH in He as [-> He]; [|done|].
      * cbn in *. split; [done|congruence].
      * cbn. rewrite H1. exact Hl.
    + intros [[? ?]|[? [= _ <-]]]; [done|]. apply (H s2 Hb Hl). right. eauto.
  - destruct (my_state _ _ _ _); [by intros [[? ?]|[? [= _ <-]]]|]. by apply IH.
  - intros He. apply IH in He; done.
Qed.
Lemma build_still E n : bld_still (build E n).
Proof.
  induction n as [|n IH]; intros o s s' Hl; [by intros [[? ?]|[? ?]]|]. cbn [build].
  destruct (promise o s) as [[[aty sty init body] a]|] eqn:Hp; [|by intros [[? ?]|[? ?]]].
  destruct (_ && _); [by intros [[? ?]|[? [= _ <-]]]|].
  destruct (ensure_dyn_state _ _ _ _ _) as [c2 [k|v]]; [by intros [[? ?]|[? [= _ <-]]]|].
  set (s1 := log (ECall o) _). apply promise_Some in Hp as [_ Ho].
  pose proof (exec_still E (build E n) o a sty IH body s1) as H.
  pose proof (Hl o _ a Ho) as Hb. cbn [bd_body] in Hb.
  destruct (exec E (build E n) o a sty body s1) as [[b|e] s2|k s2| |]; [..|by intros [[? ?]|[? ?]]|by intros [[? ?]|[? ?]]].
  - destruct (H s2 Hb Hl) as [H1 H2]; [left; eauto|]. cbn [artifacts set_artifacts]. rewrite lookup_insert.
    by intros [[? [= _ <-]]|[? ?]].
  - destruct (H s2 Hb Hl) as [H1 H2]; [left; eauto|]. by intros [[? [= _ <-]]|[? ?]].
  - destruct (H s2 Hb Hl) as [H1 H2]; [right; eauto|]. by intros [[? ?]|[? [= _ <-]]].
Qed.
Lemma pure_looks p : pure_prog p → looks p.
Proof. induction p; cbn; auto; done. Qed.
Lemma pure_facing w p : pure_prog p → same_code p (facing w p).
Proof. induction p; cbn; intros; try done; constructor; auto. Qed.
Lemma same_oblivious p : ∀ q, same_code p q → oblivious p → oblivious q.
Proof.
  assert (∀ p q, same_code p q → ∀ p' q', same_code p' q' → alike p p' → alike q q') as H.
  { clear p. induction 1 as [r| |h w k k' _ IH|k k' _ IH|x k k' _ IH]; intros p' q' Hpq Ha; inversion Ha; subst; inversion Hpq; subst.
    - by constructor.
    - constructor.
    - constructor. intros y y' Hy. eapply IH; [|by eauto]. done.
    - constructor. intros v. eapply IH; [|by eauto]. done.
    - constructor; [done|]. intros p p'. eapply IH; [|by eauto]. done. }
  intros q Hq Ho. exact (H p q Hq p q Hq Ho).
Qed.
Theorem C65_pure E w s :
  reach_by E pure_oblivious_op s → informed E w s ∧ ∀ o d, defs s o = Some d → same_code (bd_body d) (facing w (bd_body d)).
Proof.
  intros Hr. assert (∀ o d a, objs s !! o = Some (d, a) → pure_prog (bd_body d)) as Hp.
  { destruct Hr as [l Hr]. apply (reach_pure E). exists l. clear - Hr.
    induction Hr as [|l s n x r s' _ IH Hx Hs|l s n x k s' _ IH Hx Hs Hk]; [constructor|..].
    - eapply runs_done; [exact IH| |exact Hs]. destruct x; try done. apply Hx.
    - eapply runs_panic; [exact IH| |exact Hs|done]. destruct x; try done. apply Hx. }
  split.
  2:{ intros o d. unfold defs. destruct (objs s !! o) as [[d' a]|] eqn:Ho; [|done]. intros [= <-]. by eapply pure_facing, Hp. }
  clear Hp. destruct Hr as [l Hr].
  assert (∀ l s, runs E pure_oblivious_op init_st l s → ∀ o d a, objs s !! o = Some (d, a) → pure_prog (bd_body d)) as Hp.
  { clear. intros l s Hr. apply (reach_pure E). exists l.
    induction Hr as [|l s n x r s' _ IH Hx Hs|l s n x k s' _ IH Hx Hs Hk]; [constructor|..].
    - eapply runs_done; [exact IH| |exact Hs]. destruct x; try done. apply Hx.
    - eapply runs_panic; [exact IH| |exact Hs|done]. destruct x; try done. apply Hx. }
  assert (∀ s x, pure_oblivious_op s x → looking_op x) as Hop.
  { intros s0 x. destruct x; try done. cbn. intros [H1 H2]. split; [by apply pure_looks|].
    intros w'. eapply same_oblivious; [by apply pure_facing|done]. }
  assert (∀ l s n x s', runs E pure_oblivious_op init_st l s → goes (step E n x s) s' → match x with OGet _ _ => hears E w s s' | _ => True end) as Hh.
  { intros l' s0 n x s' Hr0 Hg. destruct x as [| |h o| | | | | | | | | | | | | ]; try done.
    apply goes_ends in Hg. destruct (get_with_still E (build E n) h o s0 s' (build_still E n) (Hp l' s0 Hr0) Hg) as [_ Ht].
    intros t Ht'. lia. }
  induction Hr as [|l s n x r s' Hr IH Hx Hs|l s n x k s' Hr IH Hx Hs Hk]; [constructor|..].
  - assert (goes (step E n x s) s') as Hg by (left; eauto).
    destruct (step_Inv E n x s r s' (wo_inv _ _ (informed_inv E w s IH)) (wo_stack _ _ (informed_inv E w s IH)) Hs) as [_ Hst].
    rewrite <- (unwound_done s' Hst). eapply informed_call; [exact IH|by eapply Hop|exact Hg|by eapply Hh].
  - assert (goes (step E n x s) s') as Hg by (right; eauto).
    eapply informed_call; [exact IH|by eapply Hop|exact Hg|by eapply Hh].
Qed.
Print Assumptions C65_pure.

(** ** An example: builder 0 looks at the last digit of the world, builder 1 at the others,
    builder 2 uses both.  The world is 12, then 15. *)
Definition d_look (f : N → N) : bdef := BDef 0 0 (Some VUnit) (PAsk (λ x, PNewBin (VNum (f x)) (λ b, PRet (Ok b)))).
Definition env_w : env :=
  Env (λ t, if decide (t < 3)%nat then (100 + N.of_nat t)%N else if decide (t < 5)%nat then 12%N else 15%N) (λ _ _ _ x, x) true Shared.
Definition next (x : op) (s : st) : st := match step env_w 10 x s with Done _ s' => s' | _ => s end.
Lemma informed_next w x s :
  informed env_w w s → looking_op x → match x with OGet _ _ => hears env_w w s (next x s) | _ => True end → informed env_w w (next x s).
Proof.
  intros Hi Hx Hh. unfold next in *. destruct (step env_w 10 x s) as [r s'|k s'| |] eqn:Hs; [|done..].
  destruct (step_Inv env_w 10 x s r s' (wo_inv _ _ (informed_inv _ w s Hi)) (wo_stack _ _ (informed_inv _ w s Hi)) Hs) as [_ Hst].
  rewrite <- (unwound_done s' Hst). eapply informed_call; [exact Hi|done|left; eauto|done].
Qed.
Lemma d_look_looks f : looking_op (OAlloc (d_look f)).
Proof.
  split; [done|]. intros w. constructor; [done|]. intros p p'. by constructor.
Qed.
Lemma pure_looking d : pure_prog (bd_body d) ∧ oblivious (bd_body d) → looking_op (OAlloc d).
Proof.
  intros [H1 H2]. split; [by apply pure_looks|]. intros w. eapply same_oblivious; [by apply pure_facing|done].
Qed.
Definition world_0 : st :=
  next (OAlloc (d_top 0 1)) (next (OAlloc (d_look (λ x, x / 10))) (next (OAlloc (d_look (λ x, x mod 10))) init_st))%N.
Definition world_1 : st := next (OGet HRef 2%N) world_0.
Definition world_2 : st := next (OInvalidate 0%N) world_1.
Lemma world_1_heard : hears env_w 12 world_0 (next (OGet HRef 2%N) world_0).
Proof.
  assert (tick world_0 = 3 ∧ tick (next (OGet HRef 2%N) world_0) = 5) as [H1 H2] by (split; vm_compute; reflexivity).
  intros t. rewrite H1, H2. intros Ht. cbn. by rewrite decide_False, decide_True by lia.
Qed.
Lemma world_0_informed : informed env_w 12 world_0.
Proof.
  apply informed_next; [|apply pure_looking, Props4.d_top_oblivious|exact I].
  apply informed_next; [|apply d_look_looks|exact I]. apply informed_next; [constructor|apply d_look_looks|exact I].
Qed.
Lemma world_1_informed : informed env_w 12 world_1.
Proof. unfold world_1. exact (informed_next 12%N (OGet HRef 2%N) world_0 world_0_informed I world_1_heard). Qed.
Lemma world_2_informed : informed env_w 15 world_2.
Proof.
  apply (C65_refresh env_w 12 15 10 [0%N] world_1 [Returned OutUnit]); [apply world_1_informed| |].
  - intros o d _. unfold defs.
    assert (∀ o, objs world_1 !! o = (if decide (o = 0) then Some (d_look (λ x, x mod 10), 100) else
      if decide (o = 1) then Some (d_look (λ x, x / 10), 101) else if decide (o = 2) then Some (d_top 0 1, 102) else None))%N as Ho.
    { intros o'. assert (objs world_1 = <[2 := (d_top 0 1, 102)]> (<[1 := (d_look (λ x, x / 10), 101)]> (<[0 := (d_look (λ x, x mod 10), 100)]> ∅)))%N as ->
        by reflexivity.
      repeat (destruct (decide (o' = _)) as [->|?]; [by rewrite ?lookup_insert_ne, lookup_insert by done|]).
      by rewrite !lookup_insert_ne by congruence. }
    rewrite Ho. destruct (decide (o = 0%N)) as [->|?]; [intros _; left; by left|].
    destruct (decide (o = 1%N)) as [->|?]; [intros [= <-]; right|destruct (decide (o = 2%N)) as [->|?]; [intros [= <-]; right|done]].
    + constructor. intros b. constructor.
    + constructor. intros r1. constructor. intros r2. destruct r1, r2; repeat constructor.
  - vm_compute. reflexivity.
Qed.
(** After invalidating builder 0 the answer is that of the new world, and builder 1 is not
    built again; without, the answer is out of date. *)
Example C65_applies :
  informed env_w 12 world_1 ∧ informed env_w 15 world_2 ∧ hears env_w 15 world_2 (next (OGet HRef 2%N) world_2) ∧
  (∃ s', step env_w 10 (OGet HRef 2%N) world_2 = Done (OutRes (RvVal (VPair (VNum 5) (VNum 1)))) s' ∧
     calls s' 0%N = 2 ∧ calls s' 1%N = 1 ∧ calls s' 2%N = 2) ∧
  (∃ p', eval (facing_defs world_2 15) (config world_2) 10 2%N 90 = Some (EvRet (Ok (Bin 92 (VPair (VNum 5) (VNum 1)))), p')) ∧
  (∃ s', step env_w 10 (OGet HRef 2%N) world_1 = Done (OutRes (RvVal (VPair (VNum 2) (VNum 1)))) s').
Proof.
  split; [apply world_1_informed|]. split; [apply world_2_informed|]. split.
  { assert (tick world_2 = 6) as H1 by (vm_compute; reflexivity).
    intros t. rewrite H1. intros Ht. cbn. by rewrite !decide_False by lia. }
  split_and!.
  - assert (match step env_w 10 (OGet HRef 2%N) world_2 with
            | Done (OutRes (RvVal (VPair (VNum x) (VNum y)))) s' =>
                (N.eqb x 5 && N.eqb y 1 && Nat.eqb (calls s' 0%N) 2 && Nat.eqb (calls s' 1%N) 1 && Nat.eqb (calls s' 2%N) 2)%bool
            | _ => false end = true) as H by (vm_compute; reflexivity).
    repeat match type of H with match ?x with _ => _ end = true => destruct x as []; try discriminate H end.
    eexists.
    rewrite !andb_true_iff, !N.eqb_eq, !Nat.eqb_eq in H. destruct H as [[[[-> ->] ?] ?] ?]. eauto.
  - eexists. vm_compute. reflexivity.
  - assert (match step env_w 10 (OGet HRef 2%N) world_1 with
            | Done (OutRes (RvVal (VPair (VNum x) (VNum y)))) s' => (N.eqb x 2 && N.eqb y 1)%bool
            | _ => false end = true) as H by (vm_compute; reflexivity).
    repeat match type of H with match ?x with _ => _ end = true => destruct x as []; try discriminate H end.
    eexists.
    rewrite andb_true_iff, !N.eqb_eq in H. by destruct H as [-> ->].
Qed.
Print Assumptions C65_applies.
