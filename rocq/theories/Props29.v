(** Properties: neither the order nor the number of requests matters (C62).
    Vocabulary: Spec.v; evaluation from scratch ([evals], [defs], [config],
    [strip_*], [pure_oblivious_op]): EvalSpec.v; [asks], [wanted], [has]: MinSpec.v. *)
From Verif Require Import MinOrder Facts3 DepFacts Demo.
From Verif Require Props2 Props3 Props4 Props18.
From stdpp Require Import relations.

(** The builders [L.*2] are requested one after the other (each with [get],
    [get_ref] or [get_cloned]), and these are the answers [R]; panics are caught. *)
Inductive asked (E : env) (s : st) : list (how * obj) → list answer → st → Prop :=
| asked_nil : asked E s [] [] s
| asked_done n h o r s1 L R s2 :
    step E n (OGet h o) s = Done r s1 → asked E s1 L R s2 → asked E s ((h, o) :: L) (Returned r :: R) s2
| asked_panic n h o k s1 L R s2 :
    step E n (OGet h o) s = Panic k s1 → asked E (unwound s1) L R s2 → asked E s ((h, o) :: L) (Panicked k :: R) s2.

(** Two answers are the same, up to addresses of bins. *)
Definition same_answer (r r' : answer) : Prop :=
  match r, r' with
  | Returned (OutRes v), Returned (OutRes v') => strip_rval v = strip_rval v'
  | Panicked k, Panicked k' => k = k'
  | _, _ => False
  end.

(** What a state is to its users, up to the addresses of bins. *)
Definition same_content (s s' : st) : Prop :=
  (∀ w, strip_bin <$> cached s w = strip_bin <$> cached s' w) ∧ (∀ w, state_of s w = state_of s' w) ∧
  (∀ w, knows s w ↔ knows s' w) ∧ (∀ u w, depends s u w ↔ depends s' u w) ∧
  (∀ w, live s w ↔ live s' w) ∧ (∀ w, defs s w = defs s' w).

Lemma wanted_after B σ (C C' : obj → Prop) o1 o2 w :
  (∀ z, Decision (C' z)) → (∀ z, C' z → C z ∨ wanted B σ C o1 z) →
  wanted B σ C o2 w → wanted B σ C' o2 w ∨ wanted B σ C o1 w.
Proof.
  intros Hd HC. induction 1 as [Hn|u w _ [IH|IH] Ha Hn].
  - destruct (decide (C' o2)) as [H|H]; [|by left; apply wanted_top]. destruct (HC _ H); [done|by right].
  - destruct (decide (C' w)) as [H|H]; [|left; by eapply wanted_sub]. destruct (HC _ H); [done|by right].
  - right. by eapply wanted_sub.
Qed.
Global Instance has_dec s z : Decision (has s z).
Proof. unfold has. apply _. Defined.

(** What is known of one [get], as seen from builders [B] with states [σ]. *)
Record took (E : env) (B : obj → option bdef) (σ : obj → option val) (s s' : st) (L : list obj) (l : list event) : Prop := {
  tk_trace : trace s' = l ++ trace s;
  tk_grow : pgrow s s';
  tk_noted : noted B σ s s' (λ _ _, False) l;
  tk_called : ∀ w, ECall w ∈ l ↔ ∃ o, o ∈ L ∧ wanted B σ (has s) o w ∧ σ w ≠ None;
  tk_has : ∀ w, has s' w ↔ has s w ∨ (ECall w ∈ l ∧ ∃ b, evals B σ w (EvRet (Ok b)));
  tk_once : ∀ w b, evals B σ w (EvRet (Ok b)) → count (is_call w) l ≤ 1;
  tk_cached : ∀ w b, cached s' w = Some b → evals B σ w (EvRet (Ok b));
  tk_knows : ∀ w, knows s' w ↔ knows s w ∨ w ∈ L ∨ ∃ u, EResolve u w ∈ l;
  tk_depends : ∀ u w, depends s' u w ↔ depends s u w ∨ EResolve u w ∈ l;
}.

(** The answer to a request that evaluates to [x] from scratch. *)
Definition answers_as (h : how) (x : eres) : answer :=
  match x with EvRet x => Returned (OutRes (handed h x)) | EvPanic => Panicked PkUser end.

Lemma get_took E B σ s n h o s' :
  (∀ o d, B o = Some d → oblivious (bd_body d)) → reach_by E pure_oblivious_op s → fits B σ s →
  goes (step E n (OGet h o) s) s' →
  fits B σ s' ∧ (∃ x, evals B σ o x ∧
    match x with EvRet x => step E n (OGet h o) s = Done (OutRes (handed h x)) s' | EvPanic => step E n (OGet h o) s = Panic PkUser s' end) ∧
  ∃ l, took E B σ s s' [o] l.
Proof.
  intros HB Hr Hf Hgo.
  assert (reachable E s) as Hre by (destruct Hr as [l0 Hl0]; exists l0; eapply runs_mono; [|exact Hl0]; done).
  pose proof Hr as Hrp. apply pure_oblivious_pure in Hrp. pose proof (reach_pure E s Hrp) as HP.
  destruct (reach_Inv E _ s Hr) as [I Hst].
  pose proof (λ l, Props3.C34_step E s n (OGet h o) s' l) as Hdep.
  pose proof (λ l, Props2.C19_get_makes_known E s n h o s' l Hre) as Hkn.
  pose proof (get_with_user E (build E n) h o s (build_user E n) I) as Hus. fold (get E n h o s) in Hus.
  assert (ends (get E n h o s) s' ∧ (∃ x, evals B σ o x ∧
    match x with EvRet x => step E n (OGet h o) s = Done (OutRes (handed h x)) s' | EvPanic => step E n (OGet h o) s = Panic PkUser s' end) ∧
    pureinv s' ∧ pgrow s s') as (Hend & Hans & HP' & Gr).
  { destruct (get_pure E n h o s I HP) as [G1 G2]. unfold goes in Hgo. cbn [step] in *.
    destruct (get E n h o s) as [rv s1|k s1| |] eqn:Hg.
    - destruct Hgo as [[r [= _ <-]]|(? & ? & _)]; [|done]. destruct (G1 _ _ eq_refl) as (HP' & Gr & x & Hx & ->).
      split_and!; [left; eauto| |done|done]. exists (EvRet x). split; [|done].
      eapply fits_eval; [|exact Hx]. by eapply fits_grow.
    - destruct Hgo as [[r ?]|(k' & [= <- <-] & _)]; [done|]. destruct (G2 _ _ eq_refl) as (HP' & Gr & Hx).
      split_and!; [right; eauto| |done|done]. exists EvPanic. split; [|by rewrite (Hus _ _ eq_refl)].
      eapply fits_eval; [|exact Hx]. by eapply fits_grow.
    - destruct Hgo as [[r ?]|(? & ? & _)]; done.
    - destruct Hgo as [[r ?]|(? & ? & _)]; done. }
  pose proof (fits_grow _ _ _ _ Hf Gr) as Hf'.
  split; [done|]. split; [done|].
  destruct (get_went E B σ HB n h o s s' I HP Hf Hend) as (l & Hl & N). exists l.
  assert (∀ w, ECall w ∈ l ↔ wanted B σ (has s) o w ∧ σ w ≠ None) as Hc.
  { intros w. split.
    - intros Hw. destruct (wt_called _ _ _ _ _ _ _ N w Hw) as (z & -> & ?). split; [done|].
      destruct (Hf w) as [_ <-]. exact (nt_conf _ _ _ _ _ _ (wt_noted _ _ _ _ _ _ _ N) w Hw).
    - intros [Hw Hn]. revert Hn. induction Hw as [Hn|u w _ IH Ha Hn]; intros Hs.
      + destruct (wt_all _ _ _ _ _ _ _ N o eq_refl) as [?|[?|?]]; done.
      + assert (σ u ≠ None) as Hu. { destruct Ha as (d & v & _ & Hv & _). congruence. }
        destruct (wt_closed _ _ _ _ _ _ _ N u w (IH Hu) Ha) as [?|[?|?]]; done. }
  assert (∀ w b, cached s' w = Some b → evals B σ w (EvRet (Ok b))) as Hev.
  { intros w b Hb. eapply fits_eval; [exact Hf'|]. by apply HP'. }
  split; try done.
  - exact (wt_noted _ _ _ _ _ _ _ N).
  - intros w. rewrite Hc. split; [|by intros (z & ->%elem_of_list_singleton & ?)]. intros ?. exists o. split; [by left|done].
  - intros w. split.
    + intros Hw. destruct (wt_new _ _ _ _ _ _ _ N w Hw) as [?|Hin]; [by left|]. right. split; [done|].
      unfold has in Hw. destruct (cached s' w) as [b|] eqn:Hb; [|done]. eauto.
    + intros [Hw|(Hw & b & Hb)].
      * apply (has_mono E s s'); [done| |done]. eapply get_prims; [by apply i_wf|exact Hend].
      * eapply (wt_has _ _ _ _ _ _ _ N); eauto.
  - exact (wt_once _ _ _ _ _ _ _ N).
  - intros w. rewrite elem_of_list_singleton. apply Hkn; [|done].
    destruct Hans as ([x|] & _ & Hx); [left; eauto|by right].
  - intros u w. rewrite (Hdep l u w Hre Hgo Hl). cbn. tauto.
Qed.
Lemma took_unwound E B σ s s' L l : took E B σ s s' L l → took E B σ s (unwound s') L l.
Proof. intros [? ? [] ? ? ? ? ? ?]. by split. Qed.

Lemma took_nil E B σ s : (∀ w b, cached s w = Some b → evals B σ w (EvRet (Ok b))) → took E B σ s s [] [].
Proof.
  intros H. split; try done.
  - apply noted_quiet; [done|done|by intros ? ?%elem_of_nil|intros ? ?; by rewrite elem_of_nil].
  - intros w. rewrite elem_of_nil. split; [done|]. by intros (o & ?%elem_of_nil & _).
  - intros w. rewrite elem_of_nil. naive_solver.
  - intros w b _. cbn. lia.
  - intros w. split; [by left|]. intros [?|[?%elem_of_nil|(u & ?%elem_of_nil)]]; done.
  - intros u w. rewrite elem_of_nil. tauto.
Qed.
Lemma took_trans E B σ s s1 s2 o L l1 l2 :
  took E B σ s s1 [o] l1 → took E B σ s1 s2 L l2 → took E B σ s s2 (o :: L) (l2 ++ l1).
Proof.
  intros T1 T2.
  assert (∀ w, ECall w ∈ l1 ↔ wanted B σ (has s) o w ∧ σ w ≠ None) as Hc1.
  { intros w. rewrite (tk_called _ _ _ _ _ _ _ T1). split; [by intros (z & ->%elem_of_list_singleton & ?)|].
    intros ?. exists o. split; [by left|done]. }
  split.
  - by rewrite (tk_trace _ _ _ _ _ _ _ T2), (tk_trace _ _ _ _ _ _ _ T1), (assoc_L (++)).
  - eapply pgrow_trans; [exact (tk_grow _ _ _ _ _ _ _ T1)|exact (tk_grow _ _ _ _ _ _ _ T2)].
  - eapply noted_trans; [apply (tk_grow _ _ _ _ _ _ _ T1)|exact (tk_noted _ _ _ _ _ _ _ T1)|exact (tk_noted _ _ _ _ _ _ _ T2)|].
    intros ? ?. tauto.
  - intros w. rewrite elem_of_app, (tk_called _ _ _ _ _ _ _ T2), Hc1. split.
    + intros [(z & Hz & Hw & Hs)|Hw].
      * exists z. split; [by right|]. split; [|done]. eapply wanted_mono; [|exact Hw].
        intros y Hy. apply (tk_has _ _ _ _ _ _ _ T1). by left.
      * exists o. split; [by left|done].
    + intros (z & [-> |Hz]%elem_of_cons & Hw & Hs); [by right|].
      destruct (wanted_after B σ (has s) (has s1) o z w) as [H|H]; [..|by right].
      * apply _.
      * intros y [?|[? _]]%(tk_has _ _ _ _ _ _ _ T1); [by left|right; by apply Hc1].
      * done.
      * left. exists z. done.
  - intros w. rewrite (tk_has _ _ _ _ _ _ _ T2), (tk_has _ _ _ _ _ _ _ T1), elem_of_app. tauto.
  - intros w b Hb. rewrite count_app.
    pose proof (tk_once _ _ _ _ _ _ _ T1 w b Hb). pose proof (tk_once _ _ _ _ _ _ _ T2 w b Hb).
    destruct (count (is_call w) l1) as [|c] eqn:Hc; [lia|].
    assert (ECall w ∈ l1) as Hw by (apply count_call_pos; lia).
    rewrite (count_call_in w l2); [lia|]. intros Hw2. apply (tk_called _ _ _ _ _ _ _ T2) in Hw2 as (z & _ & Hw2 & _).
    apply wanted_not in Hw2. apply Hw2. apply (tk_has _ _ _ _ _ _ _ T1). right. eauto.
  - exact (tk_cached _ _ _ _ _ _ _ T2).
  - intros w. rewrite (tk_knows _ _ _ _ _ _ _ T2), (tk_knows _ _ _ _ _ _ _ T1), elem_of_list_singleton, elem_of_cons.
    setoid_rewrite elem_of_app. naive_solver.
  - intros u w. rewrite (tk_depends _ _ _ _ _ _ _ T2), (tk_depends _ _ _ _ _ _ _ T1), elem_of_app. tauto.
Qed.

Lemma asked_took_at E B σ s L R s' :
  (∀ o d, B o = Some d → oblivious (bd_body d)) → asked E s L R s' → reach_by E pure_oblivious_op s → fits B σ s →
  Forall2 (λ q r, ∃ x, evals B σ q.2 x ∧ r = answers_as q.1 x) L R ∧ ∃ l, took E B σ s s' L.*2 l.
Proof.
  intros HB. induction 1 as [s|s n h o r s1 L R s2 Hs _ IH|s n h o k s1 L R s2 Hs _ IH]; intros Hr Hf.
  - split_and!; [constructor|]. exists []. apply took_nil. intros w b Hb.
    pose proof Hr as Hrp. apply pure_oblivious_pure in Hrp. pose proof (reach_pure E s Hrp) as HP.
    eapply fits_eval; [exact Hf|]. by apply HP.
  - destruct (get_took E B σ s n h o s1 HB Hr Hf) as (Hf1 & (x & Hx & Hx2) & l1 & T1); [left; eauto|].
    assert (reach_by E pure_oblivious_op s1) as Hr1.
    { destruct Hr as [l Hl]. eexists. eapply (runs_done E pure_oblivious_op); [exact Hl| |exact Hs]. exact Logic.I. }
    destruct (IH Hr1 Hf1) as (HR & l2 & T2). split_and!.
    + constructor; [|done]. exists x. split; [done|]. destruct x; cbn; congruence.
    + exists (l2 ++ l1). by eapply took_trans.
  - assert (k = PkUser) as ->.
    { destruct (reach_Inv E _ s Hr) as [I _]. cbn [step] in Hs.
      destruct (get E n h o s) as [rv s'|k' s'| |] eqn:Hg; try done. injection Hs as <- <-.
      exact (get_with_user E (build E n) h o s (build_user E n) I _ _ Hg). }
    destruct (get_took E B σ s n h o s1 HB Hr Hf) as (Hf1 & (x & Hx & Hx2) & l1 & T1); [right; eauto|].
    assert (reach_by E pure_oblivious_op (unwound s1)) as Hr1.
    { destruct Hr as [l Hl]. eexists. eapply (runs_panic E pure_oblivious_op); [exact Hl| |exact Hs|done]. exact Logic.I. }
    destruct (IH Hr1 Hf1) as (HR & l2 & T2). split_and!.
    + constructor; [|done]. exists x. split; [done|]. destruct x; cbn; congruence.
    + exists (l2 ++ l1). eapply took_trans; [by apply took_unwound|done].
Qed.
Lemma asked_took E s L R s' :
  reach_by E pure_oblivious_op s → asked E s L R s' →
  Forall2 (λ q r, ∃ x, evals (defs s) (config s) q.2 x ∧ r = answers_as q.1 x) L R ∧
  ∃ l, took E (defs s) (config s) s s' L.*2 l.
Proof.
  intros Hr Ha. apply (asked_took_at E (defs s) (config s) s L R s'); [|done|done|done].
  exact (reach_oblivious E s Hr).
Qed.
Lemma same_answers B σ h o x y :
  (∀ o d, B o = Some d → oblivious (bd_body d)) → evals B σ o x → evals B σ o y →
  same_answer (answers_as h x) (answers_as h y).
Proof.
  intros HB Hx Hy. pose proof (proj1 (evals_det _ _ HB) o _ Hx _ Hy) as Hd.
  destruct x as [x|], y as [y|]; cbn in *; try done. apply strip_handed. congruence.
Qed.

(** ** Requests one after the other call just those builders that some request on its
    own would have called. *)
Theorem C62_called E s L R s' w :
  reach_by E pure_oblivious_op s → asked E s L R s' →
  calls s w < calls s' w ↔ ∃ o, o ∈ L.*2 ∧ wanted (defs s) (config s) (has s) o w ∧ config s w ≠ None.
Proof.
  intros Hr Ha. destruct (asked_took E s L R s' Hr Ha) as (_ & l & T).
  rewrite (Props18.called_in s s' l w (tk_trace _ _ _ _ _ _ _ T)). apply (tk_called _ _ _ _ _ _ _ T).
Qed.
Print Assumptions C62_called.

(** Each of these that does not fail is called once altogether. *)
Theorem C62_once E s L R s' w b :
  reach_by E pure_oblivious_op s → asked E s L R s' → evals (defs s) (config s) w (EvRet (Ok b)) →
  calls s' w ≤ S (calls s w).
Proof.
  intros Hr Ha Hb. destruct (asked_took E s L R s' Hr Ha) as (_ & l & T).
  pose proof (tk_once _ _ _ _ _ _ _ T w b Hb). unfold calls. rewrite (tk_trace _ _ _ _ _ _ _ T), count_app. lia.
Qed.
Print Assumptions C62_once.

(** What is in the cache in the end: what was, and what some request wanted and did not
    fail. *)
Theorem C62_has E s L R s' w :
  reach_by E pure_oblivious_op s → asked E s L R s' →
  has s' w ↔ has s w ∨ ((∃ o, o ∈ L.*2 ∧ wanted (defs s) (config s) (has s) o w) ∧ ∃ b, evals (defs s) (config s) w (EvRet (Ok b))).
Proof.
  intros Hr Ha. destruct (asked_took E s L R s' Hr Ha) as (_ & l & T).
  rewrite (tk_has _ _ _ _ _ _ _ T), (tk_called _ _ _ _ _ _ _ T). split.
  - intros [?|((o & H1 & H2 & _) & H3)]; [by left|]. right. split; [eauto|done].
  - intros [?|((o & H1 & H2) & b & H3)]; [by left|]. right. split; [|eauto]. exists o. split_and!; [done..|].
    inversion H3; congruence.
Qed.
Print Assumptions C62_has.

(** ** So requests for the same builders, in any order, any of them any number of
    times and in any of the three forms, end in the same state (up to addresses of
    bins), … *)
Theorem C62_order E s L L' R R' s1 s2 :
  reach_by E pure_oblivious_op s → asked E s L R s1 → asked E s L' R' s2 →
  (∀ o, o ∈ L.*2 ↔ o ∈ L'.*2) → same_content s1 s2.
Proof.
  intros Hr H1 H2 HL. pose proof (reach_oblivious E s Hr) as HB.
  destruct (asked_took E s L R s1 Hr H1) as (_ & l1 & T1).
  destruct (asked_took E s L' R' s2 Hr H2) as (_ & l2 & T2).
  assert (∀ w, ECall w ∈ l1 ↔ ECall w ∈ l2) as Hc.
  { intros w. rewrite (tk_called _ _ _ _ _ _ _ T1), (tk_called _ _ _ _ _ _ _ T2). by setoid_rewrite HL. }
  assert (∀ u w, EResolve u w ∈ l1 ↔ EResolve u w ∈ l2) as He.
  { intros u w. rewrite (nt_resolved _ _ _ _ _ _ (tk_noted _ _ _ _ _ _ _ T1)), (nt_resolved _ _ _ _ _ _ (tk_noted _ _ _ _ _ _ _ T2)).
    by rewrite Hc. }
  split_and!.
  - intros w. pose proof (tk_has _ _ _ _ _ _ _ T1 w) as A1. pose proof (tk_has _ _ _ _ _ _ _ T2 w) as A2.
    rewrite <- Hc in A2. unfold has in *.
    pose proof (tk_cached _ _ _ _ _ _ _ T1 w) as D1. pose proof (tk_cached _ _ _ _ _ _ _ T2 w) as D2.
    destruct (cached s1 w) as [b1|], (cached s2 w) as [b2|]; cbn.
    + pose proof (proj1 (evals_det _ _ HB) w _ (D1 _ eq_refl) _ (D2 _ eq_refl)) as Hd. cbn in Hd. congruence.
    + exfalso. destruct (proj2 A2 (proj1 A1 ltac:(done)) eq_refl).
    + exfalso. destruct (proj2 A1 (proj1 A2 ltac:(done)) eq_refl).
    + done.
  - intros w. destruct (decide (ECall w ∈ l1)) as [H|H].
    + rewrite (nt_state _ _ _ _ _ _ (tk_noted _ _ _ _ _ _ _ T1) w H). symmetry.
      apply (nt_state _ _ _ _ _ _ (tk_noted _ _ _ _ _ _ _ T2)). by apply Hc.
    + rewrite (nt_same _ _ _ _ _ _ (tk_noted _ _ _ _ _ _ _ T1) w H). symmetry.
      apply (nt_same _ _ _ _ _ _ (tk_noted _ _ _ _ _ _ _ T2)). by rewrite <- Hc.
  - intros w. rewrite (tk_knows _ _ _ _ _ _ _ T1), (tk_knows _ _ _ _ _ _ _ T2), HL. by setoid_rewrite He.
  - intros u w. rewrite (tk_depends _ _ _ _ _ _ _ T1), (tk_depends _ _ _ _ _ _ _ T2). by rewrite He.
  - intros w. unfold live. rewrite (nt_alive _ _ _ _ _ _ (tk_noted _ _ _ _ _ _ _ T1)), (nt_alive _ _ _ _ _ _ (tk_noted _ _ _ _ _ _ _ T2)).
    destruct (tk_grow _ _ _ _ _ _ _ T1) as [G1 _]. destruct (tk_grow _ _ _ _ _ _ _ T2) as [G2 _]. try rewrite G1, G2. done.
  - intros w. unfold defs. destruct (tk_grow _ _ _ _ _ _ _ T1) as [-> _]. by destruct (tk_grow _ _ _ _ _ _ _ T2) as [-> _].
Qed.
Print Assumptions C62_order.

(** … have been given the same answers, … *)
Theorem C62_answers E s L L' R R' s1 s2 i j h o r r' :
  reach_by E pure_oblivious_op s → asked E s L R s1 → asked E s L' R' s2 →
  L !! i = Some (h, o) → R !! i = Some r → L' !! j = Some (h, o) → R' !! j = Some r' → same_answer r r'.
Proof.
  intros Hr H1 H2 Hi Hri Hj Hrj. pose proof (reach_oblivious E s Hr) as HB.
  destruct (asked_took E s L R s1 Hr H1) as (F1 & _). destruct (asked_took E s L' R' s2 Hr H2) as (F2 & _).
  destruct (Forall2_lookup_lr _ _ _ _ _ _ F1 Hi Hri) as (x & Hx & ->).
  destruct (Forall2_lookup_lr _ _ _ _ _ _ F2 Hj Hrj) as (y & Hy & ->). cbn in *.
  by eapply same_answers.
Qed.
Print Assumptions C62_answers.

(** … and any further request is answered alike, even if different builders were
    requested before. *)
Theorem C62_later E s L L' R R' s1 s2 h o r r' t1 t2 :
  reach_by E pure_oblivious_op s → asked E s L R s1 → asked E s L' R' s2 →
  asked E s1 [(h, o)] [r] t1 → asked E s2 [(h, o)] [r'] t2 → same_answer r r'.
Proof.
  intros Hr H1 H2 G1 G2.
  assert (∀ s L R s1 L' R' s2, asked E s L R s1 → asked E s1 L' R' s2 → asked E s (L ++ L') (R ++ R') s2) as Happ.
  { clear. intros s L R s1 L' R' s2. induction 1; intros G; cbn; [done|eapply asked_done; eauto|eapply asked_panic; eauto]. }
  pose proof (Happ _ _ _ _ _ _ _ H1 G1) as A1. pose proof (Happ _ _ _ _ _ _ _ H2 G2) as A2.
  assert (∀ s L R s1, asked E s L R s1 → length L = length R) as Hlen by (clear; induction 1; cbn; auto).
  eapply (C62_answers E s _ _ _ _ t1 t2 (length L) (length L') h o r r' Hr A1 A2).
  - rewrite lookup_app_r, Nat.sub_diag by lia. done.
  - rewrite (Hlen _ _ _ _ H1), lookup_app_r, Nat.sub_diag by lia. done.
  - rewrite lookup_app_r, Nat.sub_diag by lia. done.
  - rewrite (Hlen _ _ _ _ H2), lookup_app_r, Nat.sub_diag by lia. done.
Qed.
Print Assumptions C62_later.

(** ** Examples: 0 is a leaf, 1 and 2 wrap it, 3 pairs these, 4 resolves 2 and fails, 5
    resolves 1 and panics.  In two orders: the bins are others, the content is the
    same. *)
Definition d_err (w : obj) : bdef := BDef 1 0 (Some VUnit) (PResolve HRef w (λ _, PRet (Err (VNum 1)))).
Definition d_bang (w : obj) : bdef := BDef 1 0 (Some VUnit) (PResolve HRef w (λ _, PPanic)).
Definition ord_ops : list op :=
  [OAlloc (d_leaf (VNum 7)); OAlloc (d_mid 0); OAlloc (d_mid 0); OAlloc (d_top 1 2); OAlloc (d_err 2); OAlloc (d_bang 1)]%N.
Definition ord_a : list (how * obj) := [(HRef, 3); (HRef, 4); (HCloned, 5); (HRef, 1)]%N.
Definition ord_b : list (how * obj) := [(HRef, 4); (HBin, 5); (HRef, 4); (HRef, 1); (HRef, 3)]%N.
Definition reqs (L : list (how * obj)) : list op := map (λ q, OGet q.1 q.2) L.
Definition s_ord := after env_s 10 ord_ops.
Definition s_ord_a := after env_s 10 (ord_ops ++ reqs ord_a).
Definition s_ord_b := after env_s 10 (ord_ops ++ reqs ord_b).
Lemma run_asked E n L : ∀ s R s', run E n (reqs L) s = Some (R, s') → asked E s L R s'.
Proof.
  induction L as [|[h o] L IH]; intros s R s'; cbn [reqs map run fst snd]; [intros [= <- <-]; constructor|].
  destruct (step E n (OGet h o) s) as [r s1|k s1| |] eqn:Hs; try done.
  - destruct (run E n (map _ L) s1) as [[R1 s2]|] eqn:H1; [|done]. intros [= <- <-]. eapply asked_done; [exact Hs|by apply IH].
  - destruct (resumable k); [|done]. destruct (run E n (map _ L) (unwound s1)) as [[R1 s2]|] eqn:H1; [|done].
    intros [= <- <-]. eapply asked_panic; [exact Hs|by apply IH].
Qed.
(** The answers to [L] after the history [P]. *)
Definition replies (E : env) (n : nat) (P : list op) (L : list (how * obj)) : option (list answer) :=
  match run E n P init_st with
  | Some (_, s) => match run E n (reqs L) s with Some (R, _) => Some R | None => None end
  | None => None
  end.
Lemma run_after_asked E n P L R : replies E n P L = Some R → asked E (after E n P) L R (after E n (P ++ reqs L)).
Proof.
  unfold replies, after. rewrite run_app. destruct (run E n P init_st) as [[R0 s0]|]; [|done].
  destruct (run E n (reqs L) s0) as [[R1 s1]|] eqn:H; [|done]. intros [= <-]. by apply (run_asked E n).
Qed.
Example C62_applies :
  reach_by env_s pure_oblivious_op s_ord ∧
  asked env_s s_ord ord_a
    [Returned (OutRes (RvVal (VPair (VSome (VNum 7)) (VSome (VNum 7))))); Returned (OutRes (RvErr (VNum 1))); Panicked PkUser;
     Returned (OutRes (RvVal (VSome (VNum 7))))] s_ord_a ∧
  asked env_s s_ord ord_b
    [Returned (OutRes (RvErr (VNum 1))); Panicked PkUser; Returned (OutRes (RvErr (VNum 1)));
     Returned (OutRes (RvVal (VSome (VNum 7)))); Returned (OutRes (RvVal (VPair (VSome (VNum 7)) (VSome (VNum 7)))))] s_ord_b ∧
  (∀ o, o ∈ ord_a.*2 ↔ o ∈ ord_b.*2) ∧ same_content s_ord_a s_ord_b ∧
  cached s_ord_a 2 = Some (Bin 2 (VSome (VNum 7))) ∧ cached s_ord_b 2 = Some (Bin 1 (VSome (VNum 7))) ∧
  knows s_ord_b 5 ∧ depends s_ord_b 5 1 ∧ cached s_ord_b 5 = None ∧ cached s_ord_b 4 = None.
Proof.
  assert (reach_by env_s pure_oblivious_op s_ord) as Hr.
  { apply after_by. repeat (apply List.Forall_cons; [intros s|]); [..|apply List.Forall_nil]; try done;
      first [apply Props4.d_leaf_oblivious|apply Props4.d_mid_oblivious|apply Props4.d_top_oblivious|
             split; [done|]; repeat constructor]. }
  pose proof (run_after_asked env_s 10 ord_ops ord_a
    [Returned (OutRes (RvVal (VPair (VSome (VNum 7)) (VSome (VNum 7))))); Returned (OutRes (RvErr (VNum 1))); Panicked PkUser;
     Returned (OutRes (RvVal (VSome (VNum 7))))] ltac:(vm_compute; reflexivity)) as Ha.
  pose proof (run_after_asked env_s 10 ord_ops ord_b
    [Returned (OutRes (RvErr (VNum 1))); Panicked PkUser; Returned (OutRes (RvErr (VNum 1)));
     Returned (OutRes (RvVal (VSome (VNum 7)))); Returned (OutRes (RvVal (VPair (VSome (VNum 7)) (VSome (VNum 7)))))] ltac:(vm_compute; reflexivity)) as Hb.
  fold s_ord s_ord_a in Ha. fold s_ord s_ord_b in Hb.
  assert (∀ o, o ∈ ord_a.*2 ↔ o ∈ ord_b.*2) as HL.
  { intros o. cbn. rewrite !elem_of_cons, elem_of_nil. tauto. }
  split; [exact Hr|]. split; [exact Ha|]. split; [exact Hb|]. split; [exact HL|].
  split; [exact (C62_order env_s s_ord _ _ _ _ _ _ Hr Ha Hb HL)|].
  split; [vm_compute; reflexivity|]. split; [vm_compute; reflexivity|].
  split; [apply knows_b_spec; vm_compute; reflexivity|]. split; [apply depends_b_spec; vm_compute; reflexivity|].
  split; vm_compute; reflexivity.
Qed.
Print Assumptions C62_applies.
