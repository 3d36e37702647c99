(** Properties: nothing is built that need not be (C51).  Vocabulary: Spec.v;
    evaluation from scratch ([evals], [defs], [config], [pure_oblivious_op]):
    EvalSpec.v; [asks], [wanted] and [has]: MinSpec.v. *)
From Verif Require Import MinFacts Facts1 Demo.
From Verif Require Props4.
From stdpp Require Import relations.

Lemma pure_get E s n h o :
  reach_by E pure_oblivious_op s →
  Inv s ∧ pureinv s ∧ ran_out (defs s) (config s) s (get E n h o s) (λ z, z = o).
Proof.
  intros Hr. pose proof (reach_oblivious E s Hr) as Hob.
  apply pure_oblivious_pure in Hr. pose proof (reach_pure E s Hr) as HP. apply reach_Inv in Hr as [I Hst].
  split_and!; [done..|]. exact (get_ran E (defs s) (config s) Hob n h o s I HP (λ o, conj eq_refl eq_refl)).
Qed.
Lemma called_in s s' l w : trace s' = l ++ trace s → calls s w < calls s' w ↔ ECall w ∈ l.
Proof.
  intros Hl. unfold calls. rewrite Hl, count_app. split.
  - intros H. apply count_call_pos. lia.
  - intros H. assert (count (is_call w) l ≠ 0); [|lia]. unfold count. intros H0%nil_length_inv.
    assert (ECall w ∈ filter (λ e, is_call w e = true) l) as Hin by (apply elem_of_list_filter; cbn; by rewrite N.eqb_refl).
    rewrite H0 in Hin. by apply elem_of_nil in Hin.
Qed.

(** ** A [get] that returns has called exactly the builders it wanted. *)
Theorem C51_called E s n h o r s' w :
  reach_by E pure_oblivious_op s → step E n (OGet h o) s = Done r s' →
  calls s w < calls s' w ↔ wanted (defs s) (config s) (has s) o w.
Proof.
  intros Hr Hs. destruct (pure_get E s n h o Hr) as (I & HP & [H1 _]). cbn [step] in Hs.
  destruct (get E n h o s) as [rv s1|k s1| |] eqn:Hg; try done. injection Hs as _ ->.
  destruct (H1 _ _ eq_refl) as (l & Hl & N). rewrite (called_in s s' l w Hl). split.
  - intros Hw. by destruct (rn_called _ _ _ _ _ _ N w Hw) as (z & -> & ?).
  - induction 1 as [Hn|u w _ IH Ha Hn].
    + by destruct (rn_all _ _ _ _ _ _ N o eq_refl).
    + by destruct (rn_closed _ _ _ _ _ _ N u w IH Ha).
Qed.
Print Assumptions C51_called.

(** If it panics, it has called no others. *)
Theorem C51_panic E s n h o k s' w :
  reach_by E pure_oblivious_op s → step E n (OGet h o) s = Panic k s' →
  calls s w < calls s' w → wanted (defs s) (config s) (has s) o w.
Proof.
  intros Hr Hs. destruct (pure_get E s n h o Hr) as (I & HP & [_ H2]). cbn [step] in Hs.
  destruct (get E n h o s) as [rv s1|k1 s1| |] eqn:Hg; try done. injection Hs as _ ->.
  destruct (H2 _ _ eq_refl) as (l & Hl & N). rewrite (called_in s s' l w Hl).
  intros Hw. by destruct (N w Hw) as (z & -> & ?).
Qed.
Print Assumptions C51_panic.

(** Each just once, unless it fails: errors are not kept, so a failing builder is
    called again whenever it is resolved. *)
Theorem C51_once E s n h o r s' w b :
  reach_by E pure_oblivious_op s → step E n (OGet h o) s = Done r s' →
  wanted (defs s) (config s) (has s) o w → evals (defs s) (config s) w (EvRet (Ok b)) →
  calls s' w = S (calls s w).
Proof.
  intros Hr Hs Hw Hb. apply (C51_called E s n h o r s' w Hr Hs) in Hw.
  destruct (pure_get E s n h o Hr) as (I & HP & [H1 _]). cbn [step] in Hs.
  destruct (get E n h o s) as [rv s1|k s1| |] eqn:Hg; try done. injection Hs as _ ->.
  destruct (H1 _ _ eq_refl) as (l & Hl & N). pose proof (rn_once _ _ _ _ _ _ N w b Hb).
  unfold calls in *. rewrite Hl, count_app in *. lia.
Qed.
Print Assumptions C51_once.

(** ** And then the cache has the artifacts it had, and those of the wanted builders
    that did not fail. *)
Theorem C51_has E s n h o r s' w :
  reach_by E pure_oblivious_op s → step E n (OGet h o) s = Done r s' →
  has s' w ↔ has s w ∨ (wanted (defs s) (config s) (has s) o w ∧ ∃ b, evals (defs s) (config s) w (EvRet (Ok b))).
Proof.
  intros Hr Hs. pose proof (C51_called E s n h o r s' w Hr Hs) as Hc.
  destruct (pure_get E s n h o Hr) as (I & HP & [H1 _]).
  assert (∀ w b, cached s' w = Some b → evals (defs s) (config s) w (EvRet (Ok b))) as Hev.
  { pose proof (get_pure E n h o s I HP) as [G _]. cbn [step] in Hs.
    destruct (get E n h o s) as [rv s1|k s1| |] eqn:Hg; try done. injection Hs as _ ->.
    destruct (G _ _ eq_refl) as ((_ & HP') & Gr & _). intros z b Hz.
    refine (fits_eval _ _ s' z _ _ (HP' z b Hz)). apply (fits_grow _ _ s s'); [|done]. done. }
  assert (∀ z, has s z → has s' z) as Hm.
  { intros z. cbn [step] in Hs. destruct (get E n h o s) as [rv s1|k s1| |] eqn:Hg; try done. injection Hs as _ ->.
    apply (has_mono E); [done|]. eapply get_prims; [|left; eauto]. by apply i_wf. }
  cbn [step] in Hs. destruct (get E n h o s) as [rv s1|k s1| |] eqn:Hg; try done. injection Hs as _ ->.
  destruct (H1 _ _ eq_refl) as (l & Hl & N). pose proof (called_in s s' l w Hl) as Hci. split.
  - intros Hw. destruct (rn_new _ _ _ _ _ _ N w Hw) as [?|Hin]; [by left|]. right. split; [by apply Hc, Hci|].
    unfold has in Hw. destruct (cached s' w) as [b|] eqn:Hb; [|done]. eauto.
  - intros [Hw|(Hw & b & Hb)]; [by apply Hm|]. eapply (rn_has _ _ _ _ _ _ N); [exact Hb|by apply Hci, Hc].
Qed.
Print Assumptions C51_has.

(** ** All other calls but [get_mut] call no builder at all: invalidating is lazy. *)
Theorem C51_lazy E s n x s' w :
  reachable E s → goes (step E n x s) s' →
  match x with OGet _ _ | OGetMut _ _ => False | _ => True end → calls s' w = calls s w.
Proof.
  intros [I Hst]%reach_Inv Hg Hx. pose proof (step_effect E n x s s' I Hst Hg) as He.
  assert (∀ l, adds l s s' → count (is_call w) l = 0 → calls s' w = calls s w) as Hadd.
  { intros l Ha Hl. rewrite (adds_calls s s' l w Ha). lia. }
  destruct x as [d|o|h o|o f|h o|o f|o|o f|o|o|o| | | |o| ]; cbn [effect_of] in He; try done; try (by subst).
  - unfold goes in Hg. cbn [step] in Hg. destruct (alloc E d s) as [[o s1]|] eqn:Ha; [|by gd].
    destruct Hg as [[? [= _ <-]]|(? & ? & ?)]; [|done]. by apply alloc_Some in Ha as (_ & -> & _).
  - unfold goes in Hg. cbn [step] in Hg. destruct (drop_obj o s) as [s1|] eqn:Ha; [|by gd].
    destruct Hg as [[? [= _ <-]]|(? & ? & ?)]; [|done]. by apply drop_Some in Ha as (_ & _ & ->).
  - destruct He as (_ & _ & Ha & _). by eapply Hadd.
  - destruct He as (_ & [->|(_ & _ & Ha)]); [done|]. by eapply Hadd.
  - destruct He as (_ & s1 & _ & Ha & _). by eapply Hadd.
  - destruct He as (_ & _ & Ha). by eapply Hadd.
  - destruct He as (_ & _ & Ha). by eapply Hadd.
  - destruct He as (_ & Ha). by eapply Hadd.
  - destruct He as (_ & Ha). by eapply Hadd.
  - destruct He as [(_ & Ha)| ->]; [by eapply Hadd|done].
Qed.
Print Assumptions C51_lazy.

(** ** Changing one builder and getting another: exactly the wanted ones among those
    which were not in the cache or are affected by the change are called. *)
Lemma wanted_ext B σ (C C' : obj → Prop) o w : (∀ z, C z ↔ C' z) → wanted B σ C o w ↔ wanted B σ C' o w.
Proof. intros H. split; apply wanted_mono; intros z; apply H. Qed.
Theorem C51_incremental E s n x f y s1 m h o r s2 w :
  reach_by E pure_oblivious_op s → step E n (ODynStateMut x f) s = Done y s1 → step E m (OGet h o) s1 = Done r s2 →
  (calls s w < calls s2 w ↔ wanted (defs s) (config s1) (λ w, has s w ∧ ¬ affected s x w) o w) ∧
  (has s w → ¬ affected s x w → calls s2 w = calls s w ∧ cached s2 w = cached s w) ∧
  (has s o → ¬ affected s x o → s2 = s1).
Proof.
  intros Hr Hx Hg.
  assert (reach_by E pure_oblivious_op s1) as Hr1.
  { destruct Hr as [l Hl]. eexists. eapply (runs_done E pure_oblivious_op); [exact Hl| |exact Hx]. exact Logic.I. }
  assert (Inv s ∧ stack s = []) as [I Hst] by (by eapply reach_Inv).
  assert (Inv s1 ∧ stack s1 = []) as [I1 Hst1] by (by eapply reach_Inv).
  destruct (step_effect E n _ s s1 I Hst ltac:(left; eauto)) as (_ & s0 & Hf & Ha & Hs).
  assert (∀ z, has s1 z ↔ has s z ∧ ¬ affected s x z) as Hh.
  { intros z. unfold has. rewrite (ss_cached _ _ _ _ Hs). split.
    - intros Hz. assert (¬ affected s x z) as Hn by (intros Hz'; by rewrite (fg_gone _ _ _ _ Hf) in Hz).
      by rewrite <- (fg_kept _ _ _ _ Hf).
    - intros [Hz Hn]. by rewrite (fg_kept _ _ _ _ Hf). }
  assert (calls s1 w = calls s w) as Hc1 by (rewrite (adds_calls _ _ _ _ Ha); done).
  assert (defs s1 = defs s) as Hd.
  { unfold defs. by rewrite (ss_objs _ _ _ _ Hs), (fg_objs _ _ _ _ Hf). }
  split_and!.
  - rewrite <- Hc1, (C51_called E s1 m h o r s2 w Hr1 Hg), Hd. by apply wanted_ext.
  - intros Hw Hn. assert (has s1 w) as Hw1 by (by apply Hh). unfold has in Hw1.
    destruct (cached s1 w) as [b|] eqn:Hb; [|done].
    assert (rtc (prim E) s1 s2) as Hp by (exact (step_effect E m (OGet h o) s1 s2 I1 Hst1 ltac:(left; eauto))).
    destruct (prims_cached E s1 s2 w b I1 Hp) as (H1 & _ & H2); [rewrite Hst1; apply not_elem_of_nil|done|].
    split; [congruence|]. rewrite H1, <- Hb, (ss_cached _ _ _ _ Hs). by apply (fg_kept _ _ _ _ Hf).
  - intros Hw Hn. assert (has s1 o) as Hw1 by (by apply Hh). unfold has in Hw1. cbn [step] in Hg. unfold get, get_with in Hg.
    destruct (promise o s1) as [[d a]|] eqn:Hp; [|done]. destruct (how_legal E h); [|done].
    rewrite (lookup_art_ok _ o s1 d a I1 Hp) in Hg. rewrite (live_cached s1 o d a I1 Hp) in Hw1.
    destruct (artifacts (ch s1) !! a); [|done]. by injection Hg as _ <-.
Qed.
Print Assumptions C51_incremental.

(** ** Examples: the diamond (0: a leaf; 1 and 2: wrap it; 3: pairs these; 4: another
    leaf), all in the cache.  The state of 1 is changed: getting 3 calls 1 and 3 once,
    not 0, 2 or 4. *)
Lemma diamond_oblivious : reach_by env_s pure_oblivious_op s_diamond.
Proof.
  apply after_by. repeat (apply List.Forall_cons; [intros s|]); [..|apply List.Forall_nil]; try done;
    first [apply Props4.d_leaf_oblivious|apply Props4.d_mid_oblivious|apply Props4.d_top_oblivious].
Qed.
Definition s_dia1 := after env_s 10 (dia_ops ++ [ODynStateMut 1 (λ _, VNum 3)])%N.
Definition s_dia2 := after env_s 10 (dia_ops ++ [ODynStateMut 1 (λ _, VNum 3); OGet HRef 3])%N.
Example C51_applies :
  reach_by env_s pure_oblivious_op s_diamond ∧
  step env_s 10 (ODynStateMut 1 (λ _, VNum 3)) s_diamond = Done (OutVal VUnit) s_dia1 ∧
  (∃ r, step env_s 10 (OGet HRef 3) s_dia1 = Done r s_dia2) ∧
  map (λ w, calls s_diamond w) [0; 1; 2; 3; 4]%N = [1; 1; 1; 1; 1] ∧
  map (λ w, calls s_dia2 w) [0; 1; 2; 3; 4]%N = [1; 2; 1; 2; 1] ∧
  wanted (defs s_dia1) (config s_dia1) (has s_dia1) 3 1 ∧
  ¬ wanted (defs s_dia1) (config s_dia1) (has s_dia1) 3 0 ∧ ¬ wanted (defs s_dia1) (config s_dia1) (has s_dia1) 3 4.
Proof.
  assert (reach_by env_s pure_oblivious_op s_dia1) as Hr.
  { apply after_by. repeat (apply List.Forall_cons; [intros s|]); [..|apply List.Forall_nil]; try done;
    first [apply Props4.d_leaf_oblivious|apply Props4.d_mid_oblivious|apply Props4.d_top_oblivious]. }
  assert (step env_s 10 (ODynStateMut 1 (λ _, VNum 3)) s_diamond = Done (OutVal VUnit) s_dia1) as H1.
  { apply (after_done env_s 10 dia_ops). vm_compute. reflexivity. }
  assert (∃ r, step env_s 10 (OGet HRef 3) s_dia1 = Done r s_dia2) as [r H2].
  { eexists. apply (after_done env_s 10 (dia_ops ++ [ODynStateMut 1 (λ _, VNum 3)])%N (OGet HRef 3)). vm_compute. reflexivity. }
  pose proof (λ w, C51_called env_s s_dia1 10 HRef 3%N r s_dia2 w Hr H2) as Hc.
  split; [exact diamond_oblivious|]. split; [exact H1|]. split; [exists r; exact H2|].
  split; [vm_compute; reflexivity|]. split; [vm_compute; reflexivity|]. split; [|split].
  - apply Hc. apply Nat.ltb_lt. vm_compute. reflexivity.
  - rewrite <- Hc. apply Nat.nlt_ge, Nat.leb_le. vm_compute. reflexivity.
  - rewrite <- Hc. apply Nat.nlt_ge, Nat.leb_le. vm_compute. reflexivity.
Qed.
