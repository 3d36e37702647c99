(** C28 - C33: the builders of src/utils.rs, and the simple builders. *)
From Verif Require Import UtilFacts Demo Props1 Props2 Props3 Props5.
From stdpp Require Import relations.

(** What the cached artifact of [o] was made from is what is cached now. *)
Lemma given_current E s o b w rv :
  reachable E s → reent s = false → cached s o = Some b → (w, rv) ∈ gots o (trace s) →
  depends s o w ∧
  match rv with
  | RvBin bw => cached s w = Some bw
  | RvVal x => ∃ bw, cached s w = Some bw ∧ bin_val bw = x
  | RvErr e => True
  end.
Proof.
  intros Hr Hre Hb Hin. destruct (C02_was_built E s o b Hr Hb) as (l1 & b' & l2 & Hsc & _).
  apply (gots_since s o w rv _ Hsc) in Hin. by eapply C02_coherent.
Qed.
Lemma reach_any E (P : st → op → Prop) s : reach_by E P s → reachable E s.
Proof. intros [l Hl]. exists l. eapply runs_mono; [|exact Hl]. done. Qed.
Lemma done_reachable E n x s r s' : reachable E s → step E n x s = Done r s' → reachable E s'.
Proof. intros [l Hl] Hs. eexists. by eapply runs_done. Qed.
Lemma get_at E n h o s r s' d a :
  reachable E s → step E n (OGet h o) s = Done r s' → at_addr s o d a → at_addr s' o d a.
Proof.
  intros Hr Hs Hat. destruct (reach_Inv E any_op s Hr) as [I Hst].
  unfold at_addr. eapply (objs_mono E n (OGet h o)); [done|done|left; exists r; exact Hs|exact Hat].
Qed.
Ltac same_def H1 H2 := match type of H1 with at_addr _ _ ?d1 _ => match type of H2 with at_addr _ _ ?d2 _ =>
  assert (d1 = d2) as -> by (clear -H1 H2; unfold at_addr in H1, H2; congruence) end end.

(** ** C28: RedeemingBuilder *)

(** A [get] that runs a RedeemingBuilder and returns gives an artifact, never an
    error, and remembers it.  It is the artifact that the inner builder has now,
    or, if the inner builder failed in this very run, the one remembered from
    before (or the default value). *)
Theorem C28_get E s n h o r s' aty sty w dflt a :
  reachable E s → at_addr s o (redeeming aty sty w dflt) a → cached s o = None →
  step E n (OGet h o) s = Done (OutRes r) s' → reent s' = false →
  ∃ b, r = conv h b ∧ cached s' o = Some b ∧ state_of s' o = Some (VSome (of_bin b)) ∧ depends s' o w ∧
    ((gots o (trace s') = [(w, RvBin b)] ∧ cached s' w = Some b) ∨
     (∃ e, gots o (trace s') = [(w, RvErr e)] ∧ config s o = Some (VSome (of_bin b)))).
Proof.
  intros Hr Hat Hc Hs Hre.
  destruct (C40_get E s n h o r s' Hr Hc Hs (or_introl Hre)) as (d & a' & v0 & v & l & res & Hat' & Hv0 & Hpl & -> & Hca & Hsv & -> & Hl).
  same_def Hat' Hat. pose proof (done_reachable E _ _ _ _ _ Hr Hs) as Hr'.
  destruct (redeeming_plays _ _ _ _ _ _ _ _ Hpl) as [(_ & [=] & _)|[(b & Hg & [[[=] _]|[[= ->] ->]])|(e & Hg & -> & [[=]|[(b & -> & [= ->])|[_ [=]]]])]].
  - exists b. split_and!; [done|done|done| |].
    + rewrite Hg in Hl. by destruct (Hl w (RvBin b)) as [_ ?]; [left|].
    + left. split; [done|]. assert ((w, RvBin b) ∈ gots o (trace s')) as Hin by (rewrite Hg; left).
      by destruct (given_current E s' o b w (RvBin b) Hr' Hre Hca Hin) as [_ ?].
  - exists b. split_and!; [done|done|done| |].
    + rewrite Hg in Hl. by destruct (Hl w (RvErr e)) as [_ ?]; [left|].
    + right. by exists e.
Qed.
Print Assumptions C28_get.

(** It panics only if the inner builder failed in this run and there is nothing
    to return instead, or if resolving the inner builder panics. *)
Theorem C28_panics E s n h o k s' aty sty w dflt a :
  reachable E s → at_addr s o (redeeming aty sty w dflt) a →
  step E n (OGet h o) s = Panic k s' → reent s' = false →
  (∃ e, gots o (trace s') = [(w, RvErr e)] ∧ ∀ b, config s o ≠ Some (VSome (of_bin b))) ∨
  gots o (trace s') = [].
Proof.
  intros Hr Hat Hs Hre.
  destruct (C40_get_panics E s n h o k s' Hr Hs (or_introl Hre)) as (d & a' & Hat' & H). same_def Hat' Hat.
  destruct H as [H|(v0 & v & l & p & Hv0 & Hpl & -> & Hp)].
  - exfalso. unfold config, initial in H. unfold at_addr in Hat. rewrite Hat in H. by destruct (state_of s o).
  - destruct (redeeming_plays _ _ _ _ _ _ _ _ Hpl) as [(Hg & _)|[(b & Hg & [[-> _]|[-> _]])|(e & Hg & -> & [->|[(b & -> & ->)|[Hn ->]]])]];
      [by right|try (by destruct Hp as [[=]|(? & ? & ? & [=])])..].
    left. exists e. split; [done|]. intros b Hb. apply (Hn b). congruence.
Qed.
Print Assumptions C28_panics.

(** What is cached for it is what it remembers; it depends on the inner builder
    and has the same artifact, unless the inner builder failed in that run. *)
Theorem C28_remembers E s o b aty sty w dflt a :
  reach_by E (unmutated o) s → reent s = false → at_addr s o (redeeming aty sty w dflt) a → cached s o = Some b →
  state_of s o = Some (VSome (of_bin b)) ∧ (∀ x, depends s o x ↔ x = w) ∧
  (cached s w = Some b ∨ ∃ e, gots o (trace s) = [(w, RvErr e)]).
Proof.
  intros Hu Hre Hat Hb. pose proof (reach_any E _ s Hu) as Hr.
  destruct (reach_playing E o (λ _, True) s b (λ _, I) Hu (or_introl Hre) Hb) as (d & a' & v0 & v & _ & Hat' & Hpl & Hv).
  same_def Hat' Hat.
  assert (∀ rv, gots o (trace s) = [(w, rv)] → ∀ x, depends s o x ↔ x = w) as Hdep.
  { intros rv Hg x. split.
    - intros Hd. eapply redeeming_resolves, C39_dependencies; done.
    - intros ->. apply (given_current E s o b w rv Hr Hre Hb). rewrite Hg. left. }
  destruct (redeeming_plays _ _ _ _ _ _ _ _ Hpl) as [(_ & [=] & _)|[(b' & Hg & [[[=] _]|[[= <-] ->]])|(e & Hg & -> & [[=]|[(b' & -> & [= <-])|[_ [=]]]])]].
  - split_and!; [done|by eapply Hdep|]. left. apply (given_current E s o b w (RvBin b) Hr Hre Hb). rewrite Hg. left.
  - split_and!; [done|by eapply Hdep|]. right. eauto.
Qed.
Print Assumptions C28_remembers.

(** What it remembers is the most recent artifact that the inner builder gave
    it: over any history that does not reset its dynamic state, its
    configuration ([config]: what it would return if the inner builder failed
    now) is the newest of them, and the one at the start if there was none. *)
Theorem C28_most_recent E s l s' t o aty sty w dflt a :
  reachable E s → at_addr s o (redeeming aty sty w dflt) a →
  runs E (state_keeps o) s l s' → trace s' = t ++ trace s →
  config s' o = match last_given o w t with Some b => Some (VSome (of_bin b)) | None => config s o end.
Proof.
  intros Hr Hat Hrun Ht. destruct (reach_Inv E any_op s Hr) as [I Hst].
  destruct (config_redeeming E o s l s' aty sty w dflt a I Hst Hat Hrun) as (t' & Ht' & H).
  rewrite Ht in Ht'. by apply app_inv_tail in Ht' as ->.
Qed.
Print Assumptions C28_most_recent.

(** At first, that is the default value. *)
Theorem C28_default E s n r s' aty sty w dflt :
  reachable E s → step E n (OAlloc (redeeming aty sty w dflt)) s = Done r s' →
  ∃ o a, r = OutObj o ∧ at_addr s' o (redeeming aty sty w dflt) a ∧
    config s' o = Some match dflt with Some b => VSome (VBin (bin_ptr b) (bin_val b)) | None => VNone end.
Proof.
  intros Hr Hs. destruct (C17_new_builder_is_fresh E s n _ r s' Hr Hs) as (o & -> & _ & _ & (a & Hat) & _ & _ & Hst & _).
  exists o, a. split_and!; [done|done|]. unfold config, initial. rewrite Hst. unfold at_addr in Hat. by rewrite Hat.
Qed.
Print Assumptions C28_default.

(** The documentation (src/utils.rs:38-42) says that, when the old artifact is
    returned since the inner builder failed, no dependency on the inner builder
    is established, so that the RedeemingBuilder itself has to be invalidated to
    get a fresh artifact.  That is not so: whenever it has an artifact,
    invalidating the inner builder removes it. *)
Theorem C28_doc_refuted E s n o b aty sty w dflt a :
  reach_by E (unmutated o) s → reent s = false → at_addr s o (redeeming aty sty w dflt) a → cached s o = Some b → live s w →
  depends s o w ∧ ∃ s', step E n (OInvalidate w) s = Done OutUnit s' ∧ cached s' o = None.
Proof.
  intros Hu Hre Hat Hb Hl. pose proof (reach_any E _ s Hu) as Hr.
  destruct (C28_remembers E s o b aty sty w dflt a Hu Hre Hat Hb) as (_ & Hd & _).
  assert (depends s o w) as Hdw by (by apply Hd). split; [done|].
  destruct (C04_invalidate_exact E s n w Hr Hl) as (s' & Hs & Hi & _). exists s'. split; [done|]. apply Hi. by apply rtc_once.
Qed.
Print Assumptions C28_doc_refuted.

(** Fails while its state is [VNone]. *)
Definition d_flaky : bdef := BDef 0 0 (Some VNone)
  (PState (λ v, match v with VSome x => PNewBin x (λ b, PRet (Ok b)) | _ => PRet (Err (VNum 9)) end)).
Definition redeem_ops : list op :=
  [OAlloc d_flaky; OAlloc (redeeming 0 6 0 (Some (Bin 77 (VNum 5)))); OGet HBin 1;
   ODynStateMut 0 (λ _, VSome (VNum 8)); OGet HBin 1; ODynStateMut 0 (λ _, VNone); OGet HBin 1].
(** First the default; then the inner builder succeeds; then it fails again.
    Without default, the first [get] panics. *)
Example C28_applies :
  answers env_s 10 redeem_ops = Some [Returned (OutObj 0); Returned (OutObj 1);
    Returned (OutRes (RvBin (Bin 77 (VNum 5)))); Returned (OutVal VNone); Returned (OutRes (RvBin (Bin 0 (VNum 8))));
    Returned (OutVal (VSome (VNum 8))); Returned (OutRes (RvBin (Bin 0 (VNum 8))))] ∧
  reent (after env_s 10 redeem_ops) = false ∧
  cached (after env_s 10 redeem_ops) 1 = Some (Bin 0 (VNum 8)) ∧ cached (after env_s 10 redeem_ops) 0 = None ∧
  gots 1 (trace (after env_s 10 redeem_ops)) = [(0, RvErr (VNum 9))]%N ∧
  last_given 1 0 (trace (after env_s 10 redeem_ops)) = Some (Bin 0 (VNum 8)) ∧
  live (after env_s 10 redeem_ops) 0 ∧ reach_by env_s (unmutated 1) (after env_s 10 redeem_ops) ∧
  answers env_s 10 [OAlloc d_flaky; OAlloc (redeeming 0 6 0 None); OGet HBin 1] =
    Some [Returned (OutObj 0); Returned (OutObj 1); Panicked PkUser].
Proof.
  split_and!; try (vm_compute; reflexivity).
  apply after_by. repeat constructor.
Qed.

(** ** C29: FunctionalBuilder *)

(** A FunctionalBuilder depends on nothing. *)
Theorem C29_leaf E s o aty sty ini f a :
  reachable E s → at_addr s o (functional aty sty ini f) a →
  (∀ w, ¬ depends s o w) ∧ (∀ w, EResolve o w ∉ trace s) ∧ leaf s o.
Proof.
  intros Hr Hat. split_and!.
  - intros w Hd. eapply functional_reaches, C39_dependencies; done.
  - intros w Hin. destruct (C39_code E s _ Hr Hin) as (d & a' & Hat' & Hc). same_def Hat' Hat. by eapply functional_reaches.
  - intros d a' w Hat'. same_def Hat' Hat. apply functional_reaches.
Qed.
Print Assumptions C29_leaf.

(** A [get] that runs it gives what the closure returns when run on the builder's
    dynamic state, or on the initial state given to [with_state] if there is none,
    and that keeps what the closure wrote to it. *)
Theorem C29_get E s n h o r s' aty sty ini f a :
  reachable E s → at_addr s o (functional aty sty ini f) a → cached s o = None →
  step E n (OGet h o) s = Done (OutRes r) s' →
  ∃ v res, closure_runs f (default ini (state_of s o)) (FRet res) v ∧
    r = handed h res ∧ cached s' o = (match res with Ok b => Some b | Err e => None end) ∧ state_of s' o = Some v.
Proof.
  intros Hr Hat Hc Hs. pose proof (done_reachable E _ _ _ _ _ Hr Hs) as Hr'. pose proof (get_at E _ _ _ _ _ _ _ _ Hr Hs Hat) as Hat2.
  destruct (C29_leaf E s' o _ _ _ _ _ Hr' Hat2) as (_ & _ & Hlf).
  destruct (C40_get E s n h o r s' Hr Hc Hs (or_intror Hlf)) as (d & a' & v0 & v & l & res & Hat' & Hv0 & Hpl & -> & Hca & Hsv & -> & Hl).
  same_def Hat' Hat. destruct (functional_plays _ _ _ _ _ _ _ _ Hpl) as (_ & [[[=] _]|(f' & Hf & Hrun)]).
  exists v, res. assert (v0 = default ini (state_of s o)) as <-.
  { unfold config, initial in Hv0. unfold at_addr in Hat. rewrite Hat in Hv0. destruct (state_of s o); cbn in *; congruence. }
  split_and!; try done. destruct f'; try done. by injection Hf as ->.
Qed.
Print Assumptions C29_get.

(** [get] panics only if the closure does, run as in [C29_get]. *)
Theorem C29_panics E s n h o k s' aty sty ini f a :
  reachable E s → at_addr s o (functional aty sty ini f) a → step E n (OGet h o) s = Panic k s' →
  ∃ v, closure_runs f (default ini (state_of s o)) FPanic v.
Proof.
  intros Hr Hat Hs.
  assert (leaf s' o) as Hlf.
  { destruct (reach_Inv E any_op s Hr) as [I Hst].
    assert (at_addr s' o (functional aty sty ini f) a) as Hat'.
    { eapply (objs_mono E n (OGet h o)); [exact I|exact Hst|right|exact Hat]. exists k. split; [exact Hs|].
      by destruct (step_panic E _ _ _ _ _ I Hst Hs) as [[-> _]|[(? & _)|[(? & ? & ? & ? & [?|?] & _) _]]]. }
    intros d x w Hx. same_def Hx Hat'. apply functional_reaches. }
  destruct (C40_get_panics E s n h o k s' Hr Hs (or_intror Hlf)) as (d & a' & Hat' & H). same_def Hat' Hat.
  assert (config s o = Some (default ini (state_of s o))) as Hcf.
  { unfold config, initial. unfold at_addr in Hat. rewrite Hat. by destruct (state_of s o). }
  destruct H as [H|(v0 & v & l & p & Hv0 & Hpl & _ & Hp)]; [congruence|].
  assert (v0 = default ini (state_of s o)) as -> by congruence.
  destruct (functional_plays _ _ _ _ _ _ _ _ Hpl) as (_ & [[-> _]|(f' & -> & Hrun)]); [by destruct Hp as [[=]|(? & ? & ? & [=])]|].
  exists v. destruct f'; try done; by destruct Hp as [[=]|(? & ? & ? & [=])].
Qed.
Print Assumptions C29_panics.

(** What is cached is what the closure returned, and the state is as it left it. *)
Theorem C29_cached E s o b aty sty ini f a :
  reach_by E (unmutated o) s → at_addr s o (functional aty sty ini f) a → cached s o = Some b →
  ∃ v0 v, closure_runs f v0 (FRet (Ok b)) v ∧ state_of s o = Some v.
Proof.
  intros Hu Hat Hb. pose proof (reach_any E _ s Hu) as Hr. destruct (C29_leaf E s o _ _ _ _ _ Hr Hat) as (_ & _ & Hlf).
  destruct (C40_leaf E s o b Hu Hlf Hb) as (d & a' & v0 & v & Hat' & Hpl & Hv). same_def Hat' Hat.
  destruct (functional_plays _ _ _ _ _ _ _ _ Hpl) as (_ & [[[=] _]|(f' & Hf & Hrun)]).
  exists v0, v. split; [|done]. destruct f'; try done. by injection Hf as ->.
Qed.
Print Assumptions C29_cached.

(** For a closure that is a function [g] of the state, the answer of [get] is
    determined: [g] applied to the state. *)
Theorem C29_pure E s n h o aty sty ini g a :
  reachable E s → at_addr s o (functional aty sty ini (pure_closure g)) a → live s o → how_legal E h = true → cached s o = None →
  let v0 := default ini (state_of s o) in
  ∃ r s', step E (S n) (OGet h o) s = Done (OutRes r) s' ∧ state_of s' o = Some (fst (g v0)) ∧
    match snd (g v0) with
    | inl x => ∃ b, r = conv h b ∧ cached s' o = Some b ∧ bin_val b = x
    | inr e => r = RvErr e ∧ cached s' o = None
    end.
Proof.
  intros Hr Hat Hl Hh Hc v0. destruct (reach_Inv E any_op s Hr) as [I Hst].
  assert (config s o = Some v0) as Hv0.
  { unfold v0, config, initial. unfold at_addr in Hat. rewrite Hat. by destruct (state_of s o). }
  assert (∀ v f' v', closure_runs (pure_closure g) v f' v' → f' ≠ FPanic ∧ ∀ res, f' = FRet res → v' = fst (g v) ∧
    match snd (g v) with inl x => ∃ b, res = Ok b ∧ bin_val b = x | inr e => res = Err e end) as Hcl.
  { clear. intros v f' v' H. unfold closure_runs in H.
    assert (∀ q, rtc closure_step (pure_closure g, v) q →
      q = (pure_closure g, v) ∨
      q = (FSet (fst (g v)) match snd (g v) with inl x => FNewBin x (λ b, FRet (Ok b)) | inr e => FRet (Err e) end, v) ∨
      q = (match snd (g v) with inl x => FNewBin x (λ b, FRet (Ok b)) | inr e => FRet (Err e) end, fst (g v)) ∨
      ∃ x b, snd (g v) = inl x ∧ bin_val b = x ∧ q = (FRet (Ok b), fst (g v))) as Hq.
    { apply rtc_ind_r; [by left|]. intros q q' _ Hs [->|[->|[->|(x & b & Hx & Hb & ->)]]].
      - inversion Hs; subst. auto.
      - inversion Hs; subst. auto.
      - destruct (snd (g v)) as [x|e] eqn:Hg; inversion Hs; subst. right. right. right. eexists x, (Bin _ x). split_and!; reflexivity.
      - inversion Hs. }
    destruct (Hq _ H) as [[= -> ->]|[[= -> ->]|[[= -> ->]|(x & b & Hx & Hb & [= -> ->])]]].
    - done.
    - done.
    - destruct (snd (g v)); split; try done. by intros res [= <-].
    - split; [done|]. intros res [= <-]. split; [done|]. rewrite Hx. eauto. }
  destruct (get_local E n h o s _ a I Hst Hl Hh Hat) as (r & s' & Hs).
  - cbn. intros v0' v. by destruct (snd (g v)).
  - by rewrite Hv0.
  - intros v1 l v Hpl. destruct (functional_plays _ _ _ _ _ _ _ _ Hpl) as (_ & [[[=] _]|(f' & Hf & Hrun)]).
    destruct f'; try done. by destruct (Hcl _ _ _ Hrun).
  - destruct (C29_get E s (S n) h o r s' _ _ _ _ a Hr Hat Hc Hs) as (v & res & Hrun & -> & Hca & Hsv).
    fold v0 in Hrun. eexists _, s'. split_and!; [exact Hs|..].
    + by destruct (Hcl _ _ _ Hrun) as [_ [-> _]%(λ H, H res eq_refl)].
    + destruct (Hcl _ _ _ Hrun) as [_ [_ H]%(λ H, H res eq_refl)]. destruct (snd (g v0)).
      * destruct H as (b & -> & Hb). by exists b.
      * by rewrite H in Hca |- *.
Qed.
Print Assumptions C29_pure.
(** Such a builder: a counter. *)
Example C29_applies :
  answers env_s 10 [OAlloc (functional 0 0 (VNum 3) (pure_closure (λ v, match v with VNum n => (VNum (n + 1), inl (VNum n)) | _ => (v, inr VUnit) end)));
    OGet HRef 0; OInvalidate 0; OGet HRef 0; OGetDynState 0] =
  Some [Returned (OutObj 0); Returned (OutRes (RvVal (VNum 3))); Returned OutUnit; Returned (OutRes (RvVal (VNum 4))); Returned (OutOptVal (Some (VNum 5)))].
Proof. vm_compute. reflexivity. Qed.

(** ** C30: ConstBuilder *)

(** In every history: [get] of a live ConstBuilder returns, and with shared cans
    it gives the very bin the builder was constructed with; with boxes, a box
    with an equal value (as long as the user did not change it through
    [get_mut] or [lookup_mut]). *)
Theorem C30_get E s n h o aty sty c a :
  reach_by E (unmutated o) s → at_addr s o (constant (e_kind E) aty sty c) a → live s o → how_legal E h = true →
  ∃ b s', step E (S n) (OGet h o) s = Done (OutRes (conv h b)) s' ∧ cached s' o = Some b ∧
    match e_kind E with Shared => b = c | Boxed => bin_val b = bin_val c end.
Proof.
  intros Hu Hat Hl Hh. pose proof (reach_any E _ s Hu) as Hr. destruct (reach_Inv E any_op s Hr) as [I Hst].
  assert (∀ t, at_addr t o (constant (e_kind E) aty sty c) a → leaf t o) as Hlf.
  { intros t Ht d a' w Hat'. same_def Hat' Ht. apply local_no_resolve, constant_local. }
  assert (∀ v0 v b, plays (bd_body (constant (e_kind E) aty sty c)) v0 [] (PRet (Ok b)) v →
    match e_kind E with Shared => b = c | Boxed => bin_val b = bin_val c end) as Hres.
  { intros v0 v b Hpl. destruct (constant_plays _ _ _ _ _ _ _ _ Hpl) as (_ & _ & [Hb|(b' & [= <-] & Hb)]); [|done].
    destruct (e_kind E); [by injection Hb|done]. }
  destruct (cached s o) as [b|] eqn:Hc.
  - destruct (C40_leaf E s o b Hu (Hlf s Hat) Hc) as (d & a' & v0 & v & Hat' & Hpl & _). same_def Hat' Hat.
    exists b, s. split_and!; [|done|by eapply Hres].
    pose proof (C16_lookup_agrees_with_get E s (S n) h o Hr Hl Hh) as H. by rewrite Hc in H.
  - destruct (get_local E n h o s _ a I Hst Hl Hh Hat) as (r & s' & Hs); [apply constant_local| | |].
    + unfold config, initial. unfold at_addr in Hat. rewrite Hat. by destruct (state_of s o).
    + intros v0 l v Hpl. destruct (constant_plays _ _ _ _ _ _ _ _ Hpl) as (_ & _ & [Hb|(b & [=] & _)]). by destruct (e_kind E).
    + pose proof (get_at E _ _ _ _ _ _ _ _ Hr Hs Hat) as Hat2.
      destruct (C40_get E s (S n) h o r s' Hr Hc Hs (or_intror (Hlf s' Hat2))) as (d & a' & v0 & v & l & res & Hat' & Hv0 & Hpl & -> & Hca & _ & _ & _).
      same_def Hat' Hat. destruct (constant_plays _ _ _ _ _ _ _ _ Hpl) as (-> & _ & _).
      destruct res as [b|e]; [exists b, s'; split_and!; [done|done|by eapply Hres]|].
      exfalso. destruct (constant_plays _ _ _ _ _ _ _ _ Hpl) as (_ & _ & [Hb|(b & [=] & _)]). by destruct (e_kind E).
Qed.
Print Assumptions C30_get.

(** So any two [get]s, whatever happens in between, give the same bin. *)
Corollary C30_always_same E s l s' n m h o aty sty c a :
  e_kind E = Shared → reachable E s → at_addr s o (constant Shared aty sty c) a →
  runs E any_op s l s' → live s o → live s' o → how_legal E h = true →
  ∃ t t', step E (S n) (OGet h o) s = Done (OutRes (conv h c)) t ∧ step E (S m) (OGet h o) s' = Done (OutRes (conv h c)) t'.
Proof.
  intros Hk Hr Hat Hrun Hl Hl' Hh. destruct (reach_Inv E any_op s Hr) as [I Hst].
  assert (at_addr s' o (constant Shared aty sty c) a) as Hat'.
  { refine (runs_inv E any_op (λ x, at_addr x o (constant Shared aty sty c) a) s l s' I Hst Hat _ Hrun).
    intros n0 x s1 s2 I1 Hst1 H1 _ Hg. unfold at_addr in *. exact (objs_mono E n0 x o _ s1 s2 I1 Hst1 Hg H1). }
  assert (reachable E s') as Hr' by (destruct Hr as [l0 Hr]; eexists; by eapply (runs_trans E)).
  pose proof (C30_get E s n h o aty sty c a (shared_unmutated E o s Hk Hr)) as H1.
  pose proof (C30_get E s' m h o aty sty c a (shared_unmutated E o s' Hk Hr')) as H2. rewrite Hk in H1, H2.
  destruct (H1 Hat Hl Hh) as (b1 & t & Hs1 & _ & ->). destruct (H2 Hat' Hl' Hh) as (b2 & t' & Hs2 & _ & ->). eauto.
Qed.
Print Assumptions C30_always_same.
Example C30_applies :
  answers env_s 10 [OAlloc (constant Shared 0 0 (Bin 77 (VNum 5))); OGet HBin 0; OInvalidate 0; OGet HBin 0; OClearAll; OGet HBin 0] =
  Some [Returned (OutObj 0); Returned (OutRes (RvBin (Bin 77 (VNum 5)))); Returned OutUnit; Returned (OutRes (RvBin (Bin 77 (VNum 5))));
        Returned OutUnit; Returned (OutRes (RvBin (Bin 77 (VNum 5))))].
Proof. vm_compute. reflexivity. Qed.

(** ** C31: ConfigurableBuilder *)

(** [get] of a live ConfigurableBuilder returns its configuration: the dynamic
    state that the cache has, else the initial one. *)
Theorem C31_get E s n h o aty sty ini a :
  reach_by E (unmutated o) s → at_addr s o (configurable aty sty ini) a → live s o → how_legal E h = true →
  ∃ b s', step E (S n) (OGet h o) s = Done (OutRes (conv h b)) s' ∧ cached s' o = Some b ∧
    bin_val b = default ini (state_of s o).
Proof.
  intros Hu Hat Hl Hh. pose proof (reach_any E _ s Hu) as Hr. destruct (reach_Inv E any_op s Hr) as [I Hst].
  assert (∀ t, at_addr t o (configurable aty sty ini) a → leaf t o) as Hlf.
  { intros t Ht d a' w Hat'. same_def Hat' Ht. apply local_no_resolve, configurable_local. }
  destruct (cached s o) as [b|] eqn:Hc.
  - destruct (C40_leaf E s o b Hu (Hlf s Hat) Hc) as (d & a' & v0 & v & Hat' & Hpl & Hv). same_def Hat' Hat.
    exists b, s. split_and!; [|done|].
    + pose proof (C16_lookup_agrees_with_get E s (S n) h o Hr Hl Hh) as H. by rewrite Hc in H.
    + destruct (configurable_plays _ _ _ _ _ _ _ Hpl) as (_ & -> & [[=]|[[=]|(b' & [= <-] & Hb)]]).
      by rewrite Hv, Hb.
  - destruct (get_local E n h o s _ a I Hst Hl Hh Hat) as (r & s' & Hs); [apply configurable_local| | |].
    + unfold config, initial. unfold at_addr in Hat. rewrite Hat. by destruct (state_of s o).
    + intros v0 l v Hpl. by destruct (configurable_plays _ _ _ _ _ _ _ Hpl) as (_ & -> & [[=]|[[=]|(b' & [=] & Hb)]]).
    + pose proof (get_at E _ _ _ _ _ _ _ _ Hr Hs Hat) as Hat2.
      destruct (C40_get E s (S n) h o r s' Hr Hc Hs (or_intror (Hlf s' Hat2))) as (d & a' & v0 & v & l & res & Hat' & Hv0 & Hpl & -> & Hca & _ & _ & _).
      same_def Hat' Hat. destruct (configurable_plays _ _ _ _ _ _ _ Hpl) as (-> & -> & [[=]|[[=]|(b' & [= ->] & Hb)]]).
      exists b', s'. split_and!; [done|done|]. rewrite Hb. unfold config, initial in Hv0. unfold at_addr in Hat.
      rewrite Hat in Hv0. destruct (state_of s o); cbn in *; congruence.
Qed.
Print Assumptions C31_get.

(** The configuration stays the same over all histories that do not change it
    explicitly ([dyn_state_mut], [purge], [clear_all], collecting the builder as
    garbage). *)
Theorem C31_config_kept E s l s' o aty sty ini a :
  reachable E s → at_addr s o (configurable aty sty ini) a → runs E (state_keeps o) s l s' → config s' o = config s o.
Proof.
  intros Hr Hat. destruct (reach_Inv E any_op s Hr) as [I Hst]. apply (config_kept E o s l s' _ a I Hst Hat).
  intros v. apply configurable_set.
Qed.
Print Assumptions C31_config_kept.

(** So after [*cache.dyn_state_mut(o) = v], any history that does not change the
    configuration, and then [get], the artifact is [v]. *)
Theorem C31_configure E s n o f s1 x l s2 m h aty sty ini a :
  reach_by E (unmutated o) s → at_addr s o (configurable aty sty ini) a →
  step E n (ODynStateMut o f) s = Done (OutVal x) s1 →
  runs E (λ t y, state_keeps o t y ∧ unmutated o t y) s1 l s2 → live s2 o → how_legal E h = true →
  ∃ b s3, step E (S m) (OGet h o) s2 = Done (OutRes (conv h b)) s3 ∧ bin_val b = f x.
Proof.
  intros Hu Hat Hs Hrun Hl Hh. pose proof (reach_any E _ s Hu) as Hr. destruct (reach_Inv E any_op s Hr) as [I Hst].
  pose proof (done_reachable E _ _ _ _ _ Hr Hs) as Hr1. destruct (reach_Inv E any_op s1 Hr1) as [I1 Hst1].
  assert (live s o) as Hls.
  { cbn [step] in Hs. unfold live. destruct (promise o s) as [[d a']|] eqn:Hp; [|done]. by apply promise_Some in Hp as [? _]. }
  assert (at_addr s1 o (configurable aty sty ini) a) as Hat1.
  { unfold at_addr. exact (objs_mono E n (ODynStateMut o f) o _ s s1 I Hst (or_introl (ex_intro _ _ Hs)) Hat). }
  assert (config s1 o = Some (f x)) as Hc1.
  { destruct (C20_dyn_state_mut E s n o f Hr Hls) as (t1 & t2 & _ & H).
    destruct (match state_of s o with Some v => Some v | None => initial s o end) as [v|].
    - destruct H as [H1 H2]. rewrite Hs in H1. injection H1 as -> ->. unfold config. by rewrite (ss_state _ _ _ _ H2).
    - destruct H as [H1 _]. by rewrite Hs in H1. }
  assert (at_addr s2 o (configurable aty sty ini) a) as Hat2.
  { refine (runs_inv E _ (λ x, at_addr x o (configurable aty sty ini) a) s1 l s2 I1 Hst1 Hat1 _ Hrun).
    intros n0 y t1 t2 It1 Ht1 H1 _ Hg. unfold at_addr in *. exact (objs_mono E n0 y o _ t1 t2 It1 Ht1 Hg H1). }
  assert (reach_by E (unmutated o) s2) as Hu2.
  { destruct Hu as [l0 Hu]. eexists. eapply (runs_trans E); [eapply runs_done; [exact Hu| |exact Hs]; done|].
    eapply runs_mono; [|exact Hrun]. by intros ?? [??]. }
  destruct (C31_get E s2 m h o aty sty ini a Hu2 Hat2 Hl Hh) as (b & s3 & Hs3 & _ & Hc3). exists b, s3. split; [done|].
  assert (config s2 o = config s1 o) as Hk.
  { apply (C31_config_kept E s1 l s2 o aty sty ini a Hr1 Hat1). eapply runs_mono; [|exact Hrun]. by intros ?? [??]. }
  rewrite Hc3. rewrite Hc1 in Hk. unfold config, initial in Hk. unfold at_addr in Hat2. rewrite Hat2 in Hk.
  destruct (state_of s2 o); cbn in *; congruence.
Qed.
Print Assumptions C31_configure.
Example C31_applies :
  answers env_s 10 [OAlloc (configurable 0 0 (VNum 0)); OGet HRef 0; ODynStateMut 0 (λ _, VNum 42); OGet HRef 0; OInvalidate 0; OGet HRef 0; OPurge 0; OGet HRef 0] =
  Some [Returned (OutObj 0); Returned (OutRes (RvVal (VNum 0))); Returned (OutVal (VNum 0)); Returned (OutRes (RvVal (VNum 42))); Returned OutUnit;
        Returned (OutRes (RvVal (VNum 42))); Returned OutUnit; Returned (OutRes (RvVal (VNum 0)))].
Proof. vm_compute. reflexivity. Qed.

(** ** C32: ForwardingBuilder, ClonedBuilder, FeigningBuilder *)

(** The artifact of a ForwardingBuilder is the bin that the inner builder has,
    that of a ClonedBuilder has the same value; they depend on exactly the inner
    builder. *)
Theorem C32_cached E s o b d a w :
  reach_by E (unmutated o) s → reent s = false → at_addr s o d a → cached s o = Some b →
  (∃ aty sty, d = forwarding aty sty w ∨ d = feigning aty sty w ∨ d = cloned aty sty w) →
  (∀ x, depends s o x ↔ x = w) ∧
  ∃ b', cached s w = Some b' ∧ bin_val b' = bin_val b ∧ ((∀ aty sty, d ≠ cloned aty sty w) → b' = b).
Proof.
  intros Hu Hre Hat Hb (aty & sty & Hd). pose proof (reach_any E _ s Hu) as Hr.
  destruct (reach_playing E o (λ _, True) s b (λ _, I) Hu (or_introl Hre) Hb) as (d' & a' & v0 & v & _ & Hat' & Hpl & _).
  same_def Hat' Hat.
  assert (∀ rv, (w, rv) ∈ gots o (trace s) → (∀ x, depends s o x → x = w) → ∀ x, depends s o x ↔ x = w) as Hdep.
  { intros rv Hin Hx x. split; [apply Hx|]. intros ->. by apply (given_current E s o b w rv Hr Hre Hb). }
  destruct Hd as [->|[->| ->]].
  - destruct (forwarding_plays _ _ _ _ _ _ _ Hpl) as (_ & [[_ [=]]|[(b' & Hg & [= <-])|(e & _ & [=])]]).
    assert ((w, RvBin b) ∈ gots o (trace s)) as Hin by (rewrite Hg; left). split.
    + apply (Hdep _ Hin). intros x Hx. eapply forwarding_resolves, C39_dependencies; done.
    + exists b. split_and!; [|done|done]. apply (given_current E s o b w (RvBin b) Hr Hre Hb Hin).
  - destruct (feigning_plays _ _ _ _ _ _ _ Hpl) as (_ & [[_ [=]]|[(b' & Hg & [= <-])|(e & _ & [=])]]).
    assert ((w, RvBin b) ∈ gots o (trace s)) as Hin by (rewrite Hg; left). split.
    + apply (Hdep _ Hin). intros x Hx. eapply feigning_resolves, C39_dependencies; done.
    + exists b. split_and!; [|done|done]. apply (given_current E s o b w (RvBin b) Hr Hre Hb Hin).
  - destruct (cloned_plays _ _ _ _ _ _ _ Hpl) as (_ & [[_ [=]]|[(b' & Hg & [[=]|(b2 & [= <-] & Hv)])|(e & _ & [=])]]).
    assert ((w, RvVal (bin_val b')) ∈ gots o (trace s)) as Hin by (rewrite Hg; left). split.
    + apply (Hdep _ Hin). intros x Hx. eapply cloned_resolves, C39_dependencies; done.
    + destruct (given_current E s o b w _ Hr Hre Hb Hin) as [_ (bw & Hbw & Hvw)]. exists bw. split_and!; [done|congruence|].
      intros H. by destruct (H aty sty).
Qed.
Print Assumptions C32_cached.

(** Errors are passed on: if [get] of a ForwardingBuilder or ClonedBuilder gives
    an error, then since the inner builder failed with that error in this run. *)
Theorem C32_errors E s n h o e s' d a w :
  reachable E s → at_addr s o d a → step E n (OGet h o) s = Done (OutRes (RvErr e)) s' → reent s' = false →
  (∃ aty sty, d = forwarding aty sty w ∨ d = cloned aty sty w) →
  gots o (trace s') = [(w, RvErr e)] ∧ EFailed w e ∈ trace s' ∧ depends s' o w.
Proof.
  intros Hr Hat Hs Hre (aty & sty & Hd).
  destruct (C15_get_error E s n h o e s' Hr Hs) as (Hc & _).
  destruct (C40_get E s n h o (RvErr e) s' Hr Hc Hs (or_introl Hre)) as (d' & a' & v0 & v & l & res & Hat' & Hv0 & Hpl & Hres & _ & _ & -> & Hl).
  same_def Hat' Hat. destruct res as [b|e']; [by destruct h|]. injection Hres as <-.
  assert (gots o (trace s') = [(w, RvErr e)]) as Hg.
  { destruct Hd as [->| ->].
    - by destruct (forwarding_plays _ _ _ _ _ _ _ Hpl) as (_ & [[_ [=]]|[(b' & _ & [=])|(e' & Hg & [= <-])]]).
    - by destruct (cloned_plays _ _ _ _ _ _ _ Hpl) as (_ & [[_ [=]]|[(b' & _ & [[=]|(b2 & [=] & _)])|(e' & Hg & [= <-])]]). }
  rewrite Hg in Hl. destruct (Hl w (RvErr e)) as [Hin Hdep]; [left|]. split_and!; [done| |done].
  apply elem_of_list_split in Hin as (l1 & l2 & Ht).
  destruct (C15_resolve_error E s' l1 o w e l2 (done_reachable E _ _ _ _ _ Hr Hs) Ht) as [l3 ->]. rewrite Ht. set_solver.
Qed.
Print Assumptions C32_errors.

(** And conversely: if the inner builder fails in the run, so does [get], with
    the same error; if it succeeds, [get] gives that artifact. *)
Theorem C32_get E s n h o r s' d a w :
  reachable E s → at_addr s o d a → cached s o = None → step E n (OGet h o) s = Done (OutRes r) s' → reent s' = false →
  (∃ aty sty, d = forwarding aty sty w ∨ d = cloned aty sty w) →
  ∃ rv, gots o (trace s') = [(w, rv)] ∧
    match rv with
    | RvErr e => r = RvErr e ∧ cached s' o = None
    | RvBin b => r = conv h b ∧ cached s' o = Some b ∧ cached s' w = Some b
    | RvVal x => ∃ b bw, r = conv h b ∧ cached s' o = Some b ∧ cached s' w = Some bw ∧ bin_val b = x ∧ bin_val bw = x
    end.
Proof.
  intros Hr Hat Hc Hs Hre (aty & sty & Hd). pose proof (done_reachable E _ _ _ _ _ Hr Hs) as Hr'.
  destruct (C40_get E s n h o r s' Hr Hc Hs (or_introl Hre)) as (d' & a' & v0 & v & l & res & Hat' & Hv0 & Hpl & -> & Hca & _ & -> & Hl).
  same_def Hat' Hat. destruct Hd as [->| ->].
  - destruct (forwarding_plays _ _ _ _ _ _ _ Hpl) as (_ & [[_ [=]]|[(b' & Hg & [= ->])|(e' & Hg & [= ->])]]).
    + exists (RvBin b'). split; [done|]. split_and!; [done..|].
      apply (given_current E s' o b' w (RvBin b') Hr' Hre Hca). rewrite Hg. left.
    + by exists (RvErr e').
  - destruct (cloned_plays _ _ _ _ _ _ _ Hpl) as (_ & [[_ [=]]|[(b' & Hg & [[=]|(b2 & [= ->] & Hv)])|(e' & Hg & [= ->])]]).
    + exists (RvVal (bin_val b')). split; [done|].
      destruct (given_current E s' o b2 w (RvVal (bin_val b')) Hr' Hre Hca) as [_ (bw & H1 & H2)]; [rewrite Hg; left|].
      exists b2, bw. split_and!; done.
    + by exists (RvErr e').
Qed.
Print Assumptions C32_get.

(** A FeigningBuilder on an infallible builder: [get] never fails, and a panic is
    never its own (the conversion of the error is never reached): it is a panic
    during resolving the inner builder. *)
Theorem C32_feigning E s n h o d a w dw aw aty sty :
  reachable E s → at_addr s o (feigning aty sty w) a → cached s o = None → d = feigning aty sty w →
  (∀ r s', step E n (OGet h o) s = Done (OutRes r) s' → reent s' = false →
    ∃ b, r = conv h b ∧ cached s' o = Some b ∧ cached s' w = Some b) ∧
  (∀ k s', step E n (OGet h o) s = Panic k s' → reent s' = false → at_addr s' w dw aw → infallible dw → gots o (trace s') = []).
Proof.
  intros Hr Hat Hc ->. split.
  - intros r s' Hs Hre. pose proof (done_reachable E _ _ _ _ _ Hr Hs) as Hr'.
    destruct (C40_get E s n h o r s' Hr Hc Hs (or_introl Hre)) as (d' & a' & v0 & v & l & res & Hat' & Hv0 & Hpl & -> & Hca & _ & -> & Hl).
    same_def Hat' Hat. destruct (feigning_plays _ _ _ _ _ _ _ Hpl) as (_ & [[_ [=]]|[(b' & Hg & [= ->])|(e' & Hg & [=])]]).
    exists b'. split_and!; [done..|]. apply (given_current E s' o b' w (RvBin b') Hr' Hre Hca). rewrite Hg. left.
  - intros k s' Hs Hre Hatw Hinf.
    destruct (C40_get_panics E s n h o k s' Hr Hs (or_introl Hre)) as (d' & a' & Hat' & H). same_def Hat' Hat.
    destruct H as [H|(v0 & v & l & p & Hv0 & Hpl & -> & Hp)].
    { exfalso. unfold config, initial in H. unfold at_addr in Hat. rewrite Hat in H. by destruct (state_of s o). }
    destruct (feigning_plays _ _ _ _ _ _ _ Hpl) as (_ & [[-> _]|[(b' & Hg & ->)|(e' & Hg & ->)]]); [done| |exfalso].
    { by destruct Hp as [[=]|(? & ? & ? & [=])]. }
    assert (k = PkUser) as ->.
    { destruct (reach_Inv E any_op s Hr) as [I Hst].
      destruct (step_panic E _ _ _ _ _ I Hst Hs) as [[-> _]|[(? & _)|[(? & ? & ? & ? & [?|?] & _) _]]]; done. }
    assert (reachable E (unwound s')) as Hr' by (destruct Hr as [l Hl]; eexists; by eapply runs_panic).
    assert (∀ l w rv, (w, rv) ∈ gots o l → EGot o w rv ∈ l) as Hgl.
    { clear. intros l w rv. induction l as [|e l IH]; cbn; [set_solver|].
      destruct e; try (intros H; right; by apply IH).
      - destruct (decide _); [set_solver|]. intros H; right; by apply IH.
      - destruct (decide _) as [->|]; [|intros H; right; by apply IH]. intros [[= <- <-]|H]%elem_of_cons; [left|right; by apply IH]. }
    assert (EGot o w (RvErr e') ∈ trace (unwound s')) as Hin by (apply Hgl; cbn; rewrite Hg; left).
    apply elem_of_list_split in Hin as (l1 & l2 & Ht).
    destruct (C15_resolve_error E (unwound s') l1 o w e' l2 Hr' Ht) as [l3 ->].
    destruct (C39_code E (unwound s') (EFailed w e') Hr') as (d2 & a2 & Hat2 & Hc2); [rewrite Ht; set_solver|].
    change (at_addr s' w d2 a2) in Hat2. same_def Hat2 Hatw. by eapply Hinf.
Qed.
Print Assumptions C32_feigning.
(** They never panic themselves: if [get] of a ForwardingBuilder or ClonedBuilder panics,
    then in resolving the inner builder: the getter of that, called in this run, panics and
    leaves just that state behind.  A FeigningBuilder or a RedeemingBuilder may otherwise
    only panic if the inner builder fails. *)
Lemma panics_inside E s n h o s' aty sty v hw w kk a :
  promise o s = Some (BDef aty sty (Some v) (PResolve hw w kk), a) → step E n (OGet h o) s = Panic PkUser s' →
  ∃ m s0, trace s0 = EResolve o w :: ECall o :: trace s ∧
    (step E m (OGet hw w) s0 = Panic PkUser s' ∨
     ∃ r s1, step E m (OGet hw w) s0 = Done (OutRes r) s1 ∧
       exec E (build E m) o a sty (kk r) (log (EGot o w r) s1) = Panic PkUser s').
Proof.
  intros Hp. cbn. unfold get, get_with at 1. rewrite Hp. destruct (how_legal E h); [|done]. cbn [bd_aty].
  assert (∀ c x t, lookup_art (e_dbg E) c x t ≠ LPanic PkUser) as Hl by (intros c x t; unfold lookup_art; by repeat case_match).
  destruct (lookup_art (e_dbg E) (ch s) a aty) as [k| |b] eqn:Hla; [|destruct n as [|m]; [done|]|done].
  { intros [= -> _]. by destruct (Hl _ _ _ Hla). }
  cbn [build]. rewrite Hp. destruct (e_dbg E && contains_artifact (ch s) a); [done|].
  destruct (ensure_dyn_state a o sty (Some v) (make_known a o (ch s))) as [c2 [k|v']] eqn:He.
  { intros [= -> _]. exfalso. revert He. unfold ensure_dyn_state. by repeat case_match. }
  cbn [exec]. unfold resolve_with. set (s1 := log (ECall o) _).
  destruct (promise w s1) as [[dw wa]|] eqn:Hw; [|done].
  destruct (track_dependency (e_dbg E) a wa w (ch s1)) as [c|k c|] eqn:Ht; [| |done].
  2:{ intros [= -> _]. exfalso. revert Ht. unfold track_dependency. by repeat case_match. }
  intros H. exists m, (log (EResolve o w) (set_ch c s1)). split; [by destruct s|].
  destruct (get_with E (build E m) hw w (log (EResolve o w) (set_ch c s1))) as [r s2|k s2| |]; [|left; by simplify_eq|done..].
  right. exists r, s2. split; [done|]. repeat case_match; by simplify_eq.
Qed.
Lemma gives_how E m hw w s0 r s1 :
  step E m (OGet hw w) s0 = Done (OutRes r) s1 → (∃ b, r = conv hw b) ∨ ∃ e, r = RvErr e.
Proof.
  cbn. unfold get, get_with. intros H. repeat case_match; simplify_eq; eauto.
Qed.
Lemma get_panics_user E n h o s k s' d a :
  reachable E s → at_addr s o d a → step E n (OGet h o) s = Panic k s' → k = PkUser ∧ promise o s = Some (d, a).
Proof.
  intros Hr Hat Hs. destruct (reach_Inv E any_op s Hr) as [I Hst]. split.
  - destruct (step_panic E _ _ _ _ _ I Hst Hs) as [[-> _]|[(? & _)|[(? & ? & ? & ? & [?|?] & _) _]]]; done.
  - revert Hs. cbn. unfold get, get_with, promise. unfold at_addr in Hat. rewrite Hat. by case_bool_decide.
Qed.
Theorem C32_panics E s n h o k s' d a w :
  reachable E s → at_addr s o d a → step E n (OGet h o) s = Panic k s' →
  (∃ aty sty, d = forwarding aty sty w ∨ d = cloned aty sty w) →
  ∃ m hw s0, trace s0 = EResolve o w :: ECall o :: trace s ∧ step E m (OGet hw w) s0 = Panic k s'.
Proof.
  intros Hr Hat Hs (aty & sty & Hd). destruct (get_panics_user _ _ _ _ _ _ _ _ _ Hr Hat Hs) as [-> Hp].
  destruct Hd as [->| ->]; destruct (panics_inside _ _ _ _ _ _ _ _ _ _ _ _ _ Hp Hs) as (m & s0 & Ht & [H|(r & s1 & H & Hx)]);
    eauto; exfalso; by destruct (gives_how _ _ _ _ _ _ _ H) as [[b ->]|[e ->]].
Qed.
Print Assumptions C32_panics.
Theorem C32_feigning_panics E s n h o k s' d a w :
  reachable E s → at_addr s o d a → step E n (OGet h o) s = Panic k s' →
  (∃ aty sty, d = feigning aty sty w ∨ ∃ dflt, d = redeeming aty sty w dflt) →
  ∃ m hw s0, trace s0 = EResolve o w :: ECall o :: trace s ∧
    (step E m (OGet hw w) s0 = Panic k s' ∨ ∃ e s1, step E m (OGet hw w) s0 = Done (OutRes (RvErr e)) s1).
Proof.
  intros Hr Hat Hs (aty & sty & Hd). destruct (get_panics_user _ _ _ _ _ _ _ _ _ Hr Hat Hs) as [-> Hp].
  destruct Hd as [->|[dflt ->]]; destruct (panics_inside _ _ _ _ _ _ _ _ _ _ _ _ _ Hp Hs) as (m & s0 & Ht & [H|(r & s1 & H & Hx)]);
    [by eauto 6| |by eauto 6|]; destruct (gives_how _ _ _ _ _ _ _ H) as [[b ->]|[e ->]]; [done|by eauto 8| |by eauto 8].
  exfalso. cbn in Hx. match type of Hx with context [my_state ?x ?y ?z ?c] => destruct (my_state x y z c) as [pk|v] eqn:Hm end; [|done].
  injection Hx as -> _. revert Hm. unfold my_state. by repeat case_match.
Qed.
Print Assumptions C32_feigning_panics.
Example C32_applies :
  answers env_s 10 [OAlloc (d_leaf (VNum 7)); OAlloc (forwarding 0 6 0); OAlloc (cloned 0 6 0); OAlloc (feigning 0 6 0); OGet HBin 1; OGet HBin 2; OGet HBin 3; OGet HBin 0;
    OAlloc (d_fail 0); OAlloc (cloned 3 6 4); OGet HRef 5] =
  Some [Returned (OutObj 0); Returned (OutObj 1); Returned (OutObj 2); Returned (OutObj 3); Returned (OutRes (RvBin (Bin 0 (VNum 7))));
        Returned (OutRes (RvBin (Bin 1 (VNum 7)))); Returned (OutRes (RvBin (Bin 0 (VNum 7)))); Returned (OutRes (RvBin (Bin 0 (VNum 7))));
        Returned (OutObj 4); Returned (OutObj 5); Returned (OutRes (RvErr (VNum 9)))].
Proof. vm_compute. reflexivity. Qed.
Example C32_panics_applies :
  answers env_s 10 [OAlloc (d_leaf (VNum 7)); OAlloc (d_panic 0); OAlloc (forwarding 4 6 1); OAlloc (cloned 4 6 1); OAlloc (feigning 4 6 1);
    OAlloc (d_fail 0); OAlloc (feigning 3 6 5); OGet HBin 2; OGet HRef 3; OGet HBin 4; OGet HBin 6] =
  Some [Returned (OutObj 0); Returned (OutObj 1); Returned (OutObj 2); Returned (OutObj 3); Returned (OutObj 4); Returned (OutObj 5);
        Returned (OutObj 6); Panicked PkUser; Panicked PkUser; Panicked PkUser; Panicked PkUser].
Proof. vm_compute. reflexivity. Qed.

(** ** C33: infallible builders, [SimpleBuilder], [unpack] *)

(** [get] of a builder whose code returns no error gives an artifact, whatever
    the state of the cache, and in every history no failure of it is ever
    recorded. *)
Theorem C33_infallible E s n h o r s' d a :
  reachable E s → at_addr s o d a → infallible d → step E n (OGet h o) s = Done (OutRes r) s' →
  (∃ b, r = conv h b ∧ cached s' o = Some b) ∧ ∀ e, EFailed o e ∉ trace s'.
Proof.
  intros Hr Hat Hi Hs. split.
  - destruct (C03_get_caches E s n h o r s' Hr Hs) as (b & H1 & H2 & _); [|eauto].
    intros e ->. eapply Hi. by eapply (C39_errors E s n h o e s').
  - intros e Hin. pose proof (done_reachable E _ _ _ _ _ Hr Hs) as Hr'. pose proof (get_at E _ _ _ _ _ _ _ _ Hr Hs Hat) as Hat2.
    destruct (C39_code E s' _ Hr' Hin) as (d' & a' & Hat' & Hc). same_def Hat' Hat2. by eapply Hi.
Qed.
Print Assumptions C33_infallible.

(** [unpack] of a [Result<T, Never>] gives its [Ok] value: there is no other. *)
Theorem C33_unpack {T} (res : T + Empty_set) : res = inl (unpack res).
Proof. by destruct res. Qed.
Print Assumptions C33_unpack.

(** Simple builders, and all of src/utils.rs with [Err = Never], are infallible. *)
Theorem C33_infallible_builders aty sty f w dflt c k ini :
  infallible (simple aty sty f) ∧ infallible (redeeming aty sty w dflt) ∧ infallible (constant k aty sty c) ∧
  infallible (configurable aty sty ini) ∧ infallible (feigning aty sty w).
Proof.
  split_and!; [apply simple_infallible|apply redeeming_infallible|apply constant_infallible|apply configurable_infallible|apply feigning_infallible].
Qed.
Print Assumptions C33_infallible_builders.

(** The artifact of a simple builder is what its [build] returned, run on what is
    cached for the builders it resolved; its dynamic state is always unit. *)
Theorem C33_simple E s o b aty sty f a :
  reach_by E (unmutated o) s → reent s = false → at_addr s o (simple aty sty f) a → cached s o = Some b →
  ∃ l, splays f l (SRet (bin_val b)) ∧
    ∀ w rv, (w, rv) ∈ l → depends s o w ∧
      match rv with
      | RvBin bw => cached s w = Some bw
      | RvVal x => ∃ bw, cached s w = Some bw ∧ bin_val bw = x
      | RvErr e => True
      end.
Proof.
  intros Hu Hre Hat Hb. pose proof (reach_any E _ s Hu) as Hr.
  destruct (C40_run E s o b Hu Hre Hb) as (d & a' & v0 & v & l & Hat' & Hpl & _ & Hl). same_def Hat' Hat.
  exists l. split; [|exact Hl]. destruct (simple_plays _ _ _ _ _ _ _ Hpl) as (_ & [(f' & Hf & _)|(b' & [= <-] & Hsp)]); [|done].
  by destruct f'.
Qed.
Print Assumptions C33_simple.
Theorem C33_simple_get E s n h o r s' aty sty f a :
  reachable E s → at_addr s o (simple aty sty f) a → cached s o = None → step E n (OGet h o) s = Done (OutRes r) s' → reent s' = false →
  ∃ b, r = conv h b ∧ cached s' o = Some b ∧ splays f (gots o (trace s')) (SRet (bin_val b)).
Proof.
  intros Hr Hat Hc Hs Hre.
  destruct (C40_get E s n h o r s' Hr Hc Hs (or_introl Hre)) as (d' & a' & v0 & v & l & res & Hat' & Hv0 & Hpl & -> & Hca & _ & -> & Hl).
  same_def Hat' Hat. destruct (simple_plays _ _ _ _ _ _ _ Hpl) as (_ & [(f' & Hf & _)|(b' & [= ->] & Hsp)]); [by destruct f'|].
  by exists b'.
Qed.
Print Assumptions C33_simple_get.
(** It panics only if its [build] does, or in resolving what that asks for. *)
Theorem C33_simple_panics E s n h o k s' aty sty f a :
  reachable E s → at_addr s o (simple aty sty f) a → step E n (OGet h o) s = Panic k s' → reent s' = false →
  ∃ l, l = gots o (trace s') ∧ (splays f l SPanic ∨ ∃ h' w k', splays f l (SResolve h' w k')).
Proof.
  intros Hr Hat Hs Hre.
  destruct (C40_get_panics E s n h o k s' Hr Hs (or_introl Hre)) as (d & a' & Hat' & H). same_def Hat' Hat.
  destruct H as [H|(v0 & v & l & p & Hv0 & Hpl & -> & Hp)].
  { exfalso. unfold config, initial in H. unfold at_addr in Hat. rewrite Hat in H. by destruct (state_of s o). }
  eexists. split; [done|]. destruct (simple_plays _ _ _ _ _ _ _ Hpl) as (_ & [(f' & -> & Hf)|(b' & -> & Hsp)]).
  - destruct Hp as [Hp|(h' & w & k' & Hp)]; destruct f'; try done; eauto.
  - by destruct Hp as [[=]|(? & ? & ? & [=])].
Qed.
Print Assumptions C33_simple_panics.
Example C33_applies :
  answers env_b 10 [OAlloc (simple 0 0 (SRet (VNum 7))); OAlloc (simple 1 0 (SResolve HRef 0 (λ r, match r with RvVal v => SRet (VSome v) | _ => SPanic end)));
    OGet HRef 1] = Some [Returned (OutObj 0); Returned (OutObj 1); Returned (OutRes (RvVal (VSome (VNum 7))))] ∧
  splays (SResolve HRef 0 (λ r, match r with RvVal v => SRet (VSome v) | _ => SPanic end)) [(0%N, RvVal (VNum 7))] (SRet (VSome (VNum 7))).
Proof.
  split; [vm_compute; reflexivity|].
  apply (sp_got _ [] HRef 0 (λ r, match r with RvVal v => SRet (VSome v) | _ => SPanic end) (Bin 0 (VNum 7))). constructor.
Qed.
Example C33_panics_applies :
  answers env_s 10 [OAlloc (functional 0 1 (VNum 3) (FGet (λ v, match v with VNum 3 => FSet (VNum 4) FPanic | _ => FRet (Err v) end)));
    OGet HBin 0; OGet HBin 0; OAlloc (simple 0 6 (SResolve HBin 0 (λ r, SPanic))); OGet HBin 1] =
  Some [Returned (OutObj 0); Panicked PkUser; Returned (OutRes (RvErr (VNum 4))); Returned (OutObj 1); Panicked PkUser].
Proof. vm_compute. reflexivity. Qed.
