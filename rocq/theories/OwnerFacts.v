(** Lemmas behind Props17.v: ownership of builders and repeated garbage collection. *)
From Verif Require Export Owner GcFacts Facts1.
From Verif Require Demo.
From stdpp Require Import relations.

Lemma holds_knows s v w : holds s v w → knows s v.
Proof.
  intros [(b & Hb & _)|(x & Hx & _)].
  - destruct (decide (knows s v)) as [|Hn]; [done|]. by rewrite cached_unknown in Hb.
  - destruct (decide (knows s v)) as [|Hn]; [done|]. by rewrite state_unknown in Hx.
Qed.
Global Instance holds_dec s v w : Decision (holds s v w).
Proof.
  unfold holds.
  destruct (cached s v) as [b|] eqn:Hb; [destruct (decide (w ∈ mentions (bin_val b)))|];
  [left; left; eauto|..];
  (destruct (state_of s v) as [x|] eqn:Hx; [destruct (decide (w ∈ mentions x))|]; [left; right; eauto|..]);
  right; intros [(? & ? & ?)|(? & ? & ?)]; simplify_eq; done.
Defined.

Section OwnerFacts.
Context (E : env) (K : obj → gset obj) (R : gset obj).
Notation held := (held K R).
Notation settled := (settled K R).
Notation settles := (settles E K R).
Notation rounds := (rounds E K R).
Notation rooted := (rooted K R).
Notation blocks := (blocks K).
Notation doomed := (doomed K R).
Notation keeps := (λ x y, y ∈ K x).

Lemma blocks_knows s v w : blocks s v w → knows s v.
Proof. intros [H|(x & H & _)]; [by apply depends_knows in H as [? _]|by eapply holds_knows]. Qed.

Local Instance depends_decision s u w : Decision (depends s u w).
Proof. destruct (Demo.depends_b s u w) eqn:Hd; [left; by apply Demo.depends_b_spec|right; intros H%Demo.depends_b_spec; congruence]. Defined.

(** ** Dropping *)
Lemma set_alive_twice X Y s : set_alive X (set_alive Y s) = set_alive X s.
Proof. done. Qed.
Lemma settles_ok s s' :
  settles s s' → Inv s → stack s = [] →
  Inv s' ∧ stack s' = [] ∧ settled s' ∧ ∃ X, s' = set_alive X s ∧ X ⊆ alive s.
Proof.
  induction 1 as [s Hs|s w n s1 s2 Hl Hn Hd _ IH]; intros I Hst.
  - split_and!; [done..|]. exists (alive s). split; [by destruct s|done].
  - destruct (step_Inv E n _ s _ s1 I Hst Hd) as [I1 Hst1]. destruct (IH I1 Hst1) as (I2 & Hst2 & Hs2 & X & -> & HX).
    cbn [step] in Hd. destruct (drop_obj w s) as [sx|] eqn:Hdr; [|done]. injection Hd as ->.
    apply drop_Some in Hdr as (_ & _ & ->). split_and!; [done..|]. exists X. split; [done|]. cbn in HX. set_solver.
Qed.

(** A live builder hangs on the user or on the cache. *)
Lemma live_from s w :
  Inv s → older K → settled s → live s w → ∃ x, (x ∈ R ∨ ∃ v, holds s v x) ∧ rtc keeps x w.
Proof.
  intros I Hold Hs. remember (N.to_nat (nobj s - w)) as m eqn:Hm. revert w Hm.
  induction (lt_wf m) as [m _ IH]; intros w Hm Hl.
  apply Hs in Hl as Hh. destruct Hh as [Hr|[Hv|(u & Hu & Hk)]].
  - exists w. split; [by left|apply rtc_refl].
  - exists w. split; [by right|apply rtc_refl].
  - assert (∀ o, live s o → (o < nobj s)%N) as Hlt.
    { intros o Ho. destruct (i_alive _ I o Ho) as [y Hy]. by apply (i_num _ I) in Hy. }
    pose proof (Hold u w Hk). pose proof (Hlt u Hu). pose proof (Hlt w Hl).
    destruct (IH (N.to_nat (nobj s - u)) ltac:(lia) u eq_refl Hu) as (x & Hx & Hp).
    exists x. split; [done|]. by eapply rtc_r.
Qed.
Lemma held_path s x w : settled s → (x ∈ R ∨ ∃ v, holds s v x) → rtc keeps x w → live s w.
Proof.
  intros Hs Hx Hp. assert (live s x) as Hl by (apply Hs; unfold Owner.held; tauto). clear Hx.
  induction Hp as [|x y z Hy _ IH]; [done|]. apply IH. apply Hs. right. right. eauto.
Qed.

(** ** One round *)
Record round_ok (s s' : st) : Prop := {
  ro_Inv : Inv s';
  ro_stack : stack s' = [];
  ro_settled : settled s';
  ro_knows : ∀ w, knows s' w ↔ knows s w ∧ ¬ collected s w;
  ro_kept : ∀ w, ¬ collected s w → cached s' w = cached s w ∧ state_of s' w = state_of s w;
  ro_gone : ∀ w, collected s w → cached s' w = None ∧ state_of s' w = None;
  ro_depends : ∀ u w, depends s' u w ↔ depends s u w ∧ ¬ collected s u ∧ ¬ collected s w;
  ro_count : number_of_known (ch s') ≤ number_of_known (ch s) ∧
    ((∃ w, collected s w) → number_of_known (ch s') < number_of_known (ch s));
  ro_lk : lk (ch s) → lk (ch s');
}.
Lemma round_of m s s1 s2 :
  Inv s → stack s = [] → step E m OGc s = Done OutUnit s1 →
  Inv s2 → stack s2 = [] → settled s2 → ch s2 = ch s1 → objs s2 = objs s1 → round_ok s s2.
Proof.
  intros I Hst Hg I2 Hst2 Hs2 Hch Hob. destruct (step_Inv E m _ s _ s1 I Hst Hg) as [I1 Hst1].
  destruct (gc_done_effect E m s _ s1 I Hg) as [_ Hf].
  assert (∀ w, knows s2 w ↔ knows s1 w) as Hk by (intros w; unfold knows, at_addr; by rewrite Hch, Hob).
  assert (∀ w, cached s2 w = cached s1 w) as Hc by (intros w; unfold cached; by rewrite Hch, Hob).
  assert (∀ w, state_of s2 w = state_of s1 w) as Hv by (intros w; unfold state_of; by rewrite Hch, Hob).
  assert (∀ u w, depends s2 u w ↔ depends s1 u w) as Hd by (intros u w; unfold depends, at_addr; by rewrite Hch, Hob).
  split; [done..| | | | | |].
  - intros w. rewrite Hk. apply (fg_knows _ _ _ _ Hf).
  - intros w Hw. rewrite Hc, Hv. split; [by apply (fg_kept _ _ _ _ Hf)|by apply (fg_state_kept _ _ _ _ Hf)].
  - intros w Hw. rewrite Hc, Hv. split; [by apply (fg_gone _ _ _ _ Hf)|by apply (fg_state_gone _ _ _ _ Hf)].
  - intros u w. rewrite Hd. apply (fg_depends _ _ _ _ Hf).
  - rewrite Hch. exact (gc_count E m s _ s1 I I1 Hg).
  - rewrite Hch. intros Hl. assert (goes (step E m OGc s) s1) as Hgo by (left; eauto).
    exact (gc_friendly_lk E m OGc s s1 I Hst Logic.I Hgo Hl).
Qed.
Lemma round_is m s s1 s2 :
  Inv s → stack s = [] → step E m OGc s = Done OutUnit s1 → settles s1 s2 → round_ok s s2.
Proof.
  intros I Hst Hg Hse. destruct (step_Inv E m _ s _ s1 I Hst Hg) as [I1 Hst1].
  destruct (settles_ok s1 s2 Hse I1 Hst1) as (I2 & Hst2 & Hs2 & X & -> & HX). by eapply round_of.
Qed.

Section Round.
Context (s s' : st) (Hold : older K) (I : Inv s) (Hst : stack s = []) (Hset : settled s) (Hr : round_ok s s').

Lemma collected_free w v : collected s w → ¬ rooted w ∧ ¬ blocks s v w.
Proof.
  intros (_ & Hl & Hd). split.
  - intros (x & Hx & Hp). apply Hl. by eapply held_path; [|left|].
  - intros [Hv|(x & Hx & Hp)]; [by eapply Hd|]. apply Hl. eapply held_path; [done|right|]; eauto.
Qed.
Lemma collected_doomed w : collected s w → doomed s w.
Proof. intros Hc. constructor; [by eapply collected_free|]. intros v Hv. by eapply collected_free in Hv. Qed.

Lemma holds_round v x : holds s' v x ↔ holds s v x ∧ ¬ collected s v.
Proof.
  split.
  - intros Hh. apply holds_knows in Hh as Hk. apply (ro_knows _ _ Hr) in Hk as [_ Hn].
    destruct (ro_kept _ _ Hr v Hn) as [H1 H2]. unfold holds in *. rewrite H1, H2 in Hh. done.
  - intros [Hh Hn]. destruct (ro_kept _ _ Hr v Hn) as [H1 H2]. unfold holds in *. by rewrite H1, H2.
Qed.
Lemma blocks_round v w : blocks s' v w ↔ blocks s v w ∧ ¬ collected s v.
Proof.
  unfold Owner.blocks. rewrite (ro_depends _ _ Hr). setoid_rewrite holds_round. split.
  - intros [(H1 & H2 & _)|(x & [H1 H2] & H3)]; split; try done; [by left|right; eauto].
  - intros [[H1|(x & H1 & H2)] H3]; [|right; eauto]. left. split_and!; [done..|]. intros (_ & _ & Hn). by eapply Hn.
Qed.
Lemma doomed_round w : doomed s' w ↔ doomed s w.
Proof.
  split.
  - induction 1 as [w Hn _ IH]. constructor; [done|]. intros v Hv.
    destruct (decide (knows s' v)) as [Hk|Hk].
    + apply IH. apply blocks_round. split; [done|]. by apply (ro_knows _ _ Hr) in Hk as [_ ?].
    + apply collected_doomed. apply blocks_knows in Hv as Hkv.
      assert (¬ ¬ collected s v) as Hnn. { intros Hc. apply Hk. by apply (ro_knows _ _ Hr). }
      unfold collected in *. split_and!; [done| |].
      * intros Hl. apply Hnn. by intros (_ & ? & _).
      * intros u Hu. apply Hnn. intros (_ & _ & Hb). by eapply Hb.
  - induction 1 as [w Hn _ IH]. constructor; [done|]. intros v Hv. apply IH. by apply blocks_round in Hv as [? _].
Qed.
Lemma doomed_collected w : knows s w → doomed s w → (∃ v, collected s v).
Proof.
  intros Hk Hd. revert Hk. induction Hd as [w Hn _ IH]; intros Hk.
  destruct (known_set s I) as (X & HX & _).
  destruct (decide (w ∈ alive s)) as [Hl|Hl].
  - destruct (live_from s w I Hold Hset Hl) as (x & [Hx|(v & Hv)] & Hp).
    + exfalso. apply Hn. by exists x.
    + apply (IH v); [right; eauto|by eapply holds_knows].
  - destruct (decide (set_Exists (λ u, depends s u w) X)) as [(u & Hu & Hd)|Hno].
    + apply (IH u); [by left|by apply HX].
    + exists w. split_and!; [done..|]. intros u Hd. apply Hno. exists u. split; [|done]. apply HX. by apply depends_knows in Hd as [? _].
Qed.
End Round.

(** ** Many rounds *)
Record rounds_ok (s s' : st) : Prop := {
  rs_Inv : Inv s';
  rs_stack : stack s' = [];
  rs_settled : settled s';
  rs_doomed : ∀ w, doomed s' w ↔ doomed s w;
  rs_less : ∀ w, knows s' w → knows s w;
  rs_more : ∀ w, knows s w → knows s' w ∨ doomed s w;
  rs_kept : ∀ w, knows s' w → cached s' w = cached s w ∧ state_of s' w = state_of s w;
  rs_depends : ∀ u w, depends s' u w ↔ depends s u w ∧ knows s' u ∧ knows s' w;
  rs_lk : lk (ch s) → lk (ch s');
}.
(** Rounds one after the other. *)
Inductive chain : nat → st → st → Prop :=
| chain_O s : chain 0 s s
| chain_S n s s2 s3 : round_ok s s2 → chain n s2 s3 → chain (S n) s s3.
Lemma chain_is n s s' :
  older K → Inv s → stack s = [] → settled s → chain n s s' →
  rounds_ok s s' ∧ (number_of_known (ch s) ≤ n → ∀ w, knows s' w → ¬ doomed s w).
Proof.
  intros Hold I Hst Hset Hr. revert I Hst Hset.
  induction Hr as [s|n s s2 s3 Hr _ IH]; intros I Hst Hset.
  - split; [split; try done; [auto|]|].
    + intros u w. split; [|tauto]. intros Hd. split; [done|]. by apply depends_knows.
    + intros Hn w Hw Hd. destruct (known_set s I) as (X & HX & Hsz).
      assert (size X = 0) as H0 by lia. apply size_empty_inv in H0. apply HX in Hw. set_solver.
  - destruct (IH (ro_Inv _ _ Hr) (ro_stack _ _ Hr) (ro_settled _ _ Hr)) as [Ho Hall].
    assert (∀ w, knows s2 w → ¬ collected s w) as Hnc by (intros w [_ ?]%(ro_knows _ _ Hr); done).
    split; [split; try apply Ho|].
    + intros w. rewrite (rs_doomed _ _ Ho). by apply doomed_round.
    + intros w Hw. apply (rs_less _ _ Ho) in Hw. by apply (ro_knows _ _ Hr) in Hw as [? _].
    + intros w Hw. destruct (decide (knows s2 w)) as [Hk|Hk].
      * destruct (rs_more _ _ Ho w Hk) as [?|Hd]; [by left|]. right. by apply (doomed_round s s2).
      * right. apply collected_doomed; [done|].
        assert (¬ ¬ collected s w) as Hnn. { intros Hc. apply Hk. by apply (ro_knows _ _ Hr). }
        unfold collected in *. split_and!; [done| |].
        -- intros Hl. apply Hnn. by intros (_ & ? & _).
        -- intros u Hu. apply Hnn. intros (_ & _ & Hb). by eapply Hb.
    + intros w Hw. destruct (rs_kept _ _ Ho w Hw) as [-> ->]. apply (ro_kept _ _ Hr). apply Hnc. by apply (rs_less _ _ Ho).
    + intros u w. rewrite (rs_depends _ _ Ho), (ro_depends _ _ Hr). split; [tauto|].
      intros (Hd & Hu & Hw). split_and!; try done; apply Hnc; by apply (rs_less _ _ Ho).
    + intros Hl. apply (rs_lk _ _ Ho). by apply (ro_lk _ _ Hr).
    + intros Hn w Hw Hd. destruct (ro_count _ _ Hr) as [_ Hc].
      assert (knows s w) as Hkw. { apply (rs_less _ _ Ho) in Hw. by apply (ro_knows _ _ Hr) in Hw as [? _]. }
      specialize (Hc (doomed_collected s Hold I Hset w Hkw Hd)).
      apply (Hall ltac:(lia) w Hw). by apply (doomed_round s s2).
Qed.

Lemma rounds_chain n s s' : Inv s → stack s = [] → rounds n s s' → chain n s s'.
Proof.
  intros I Hst Hr. revert I Hst. induction Hr as [s|n m s s1 s2 s3 Hg Hse _ IH]; intros I Hst; [constructor|].
  pose proof (round_is m s s1 s2 I Hst Hg Hse) as Hr. eapply chain_S; [exact Hr|]. apply IH; apply Hr.
Qed.
Lemma rounds_is n s s' :
  older K → Inv s → stack s = [] → settled s → rounds n s s' →
  rounds_ok s s' ∧ (number_of_known (ch s) ≤ n → ∀ w, knows s' w → ¬ doomed s w).
Proof. intros Hold I Hst Hset Hr. apply chain_is; try done. by apply rounds_chain. Qed.

(** What is left in the end. *)
Lemma reclaimed s s' :
  older K → rounds_ok s s' → (∀ w, knows s' w → ¬ doomed s w) →
  (∀ w, knows s' w ↔ knows s w ∧ ¬ doomed s w) ∧
  (∀ w, knows s' w → cached s' w = cached s w ∧ state_of s' w = state_of s w) ∧
  (∀ u w, depends s' u w ↔ depends s u w ∧ ¬ doomed s u ∧ ¬ doomed s w) ∧
  (∀ w, live s' w ↔ ∃ x, (x ∈ R ∨ ∃ v, knows s v ∧ ¬ doomed s v ∧ holds s v x) ∧ rtc (λ x y, y ∈ K x) x w).
Proof.
  intros Hold Ho Hall.
  assert (∀ w, knows s' w ↔ knows s w ∧ ¬ doomed s w) as Hk.
  { intros w. split.
    - intros Hw. split; [by apply (rs_less _ _ Ho)|by apply Hall].
    - intros [Hw Hd]. by destruct (rs_more _ _ Ho w Hw). }
  assert (∀ v x, holds s' v x ↔ holds s v x ∧ ¬ doomed s v) as Hh.
  { intros v x. split.
    - intros H. apply holds_knows in H as Hv. destruct (rs_kept _ _ Ho v Hv) as [H1 H2].
      unfold holds in *. rewrite H1, H2 in H. split; [done|]. by apply Hk.
    - intros [H Hd]. apply holds_knows in H as Hv. assert (knows s' v) as Hv' by (by apply Hk).
      destruct (rs_kept _ _ Ho v Hv') as [H1 H2]. unfold holds in *. by rewrite H1, H2. }
  split_and!; [done|apply Ho|..].
  - intros u w. rewrite (rs_depends _ _ Ho), !Hk. split; [tauto|].
    intros (Hd & H1 & H2). split_and!; try done; by apply depends_knows in Hd as [? ?].
  - intros w. split.
    + intros Hl. destruct (live_from s' w (rs_Inv _ _ Ho) Hold (rs_settled _ _ Ho) Hl) as (x & Hx & Hp).
      exists x. split; [|done]. destruct Hx as [?|(v & Hv)]; [by left|]. right. exists v. apply Hh in Hv as [Hv Hd].
      split_and!; try done. by eapply holds_knows.
    + intros (x & Hx & Hp). apply (held_path s' x w (rs_settled _ _ Ho)); [|done].
      destruct Hx as [?|(v & _ & Hd & Hv)]; [by left|]. right. exists v. by apply Hh.
Qed.

(** ** They can be done *)
Lemma held_dec s w : Inv s → Decision (held s w).
Proof.
  intros I. unfold Owner.held.
  destruct (decide (w ∈ R)) as [|H1]; [left; auto|].
  destruct (decide (set_Exists (λ u, w ∈ K u) (alive s))) as [H2|H2].
  { left. right. right. destruct H2 as (u & Hu & Hw). exists u. done. }
  set (X := list_to_set (map snd (map_to_list (known (ch s)))) : gset obj).
  destruct (decide (set_Exists (λ v, holds s v w) X)) as [H3|H3].
  { left. right. left. destruct H3 as (v & _ & Hv). eauto. }
  right. intros [?|[(v & Hv)|(u & Hu & Hw)]]; [done|..].
  - apply H3. exists v. split; [|done]. apply holds_knows in Hv as (d & a & _ & Hk).
    unfold X. apply elem_of_list_to_set, elem_of_list_fmap. exists (a, v). split; [done|]. by apply elem_of_map_to_list.
  - apply H2. by exists u.
Qed.
Lemma settles_exists s :
  Inv s → stack s = [] → (∀ w, held s w → live s w) → ∃ s', settles s s'.
Proof.
  remember (size (alive s)) as n eqn:Hn. revert s Hn. induction (lt_wf n) as [n _ IH]; intros s Hn I Hst Hh.
  pose proof (λ w, held_dec s w I) as Hdec.
  destruct (decide (set_Exists (λ w, ¬ held s w) (alive s))) as [(w & Hw & Hnh)|Hno].
  - set (s1 := set_alive (alive s ∖ {[w]}) s).
    assert (step E 0 (ODrop w) s = Done OutUnit s1) as Hd.
    { cbn [step]. unfold drop_obj. rewrite bool_decide_eq_true_2 by done.
      rewrite Hst, bool_decide_eq_false_2 by apply not_elem_of_nil. done. }
    destruct (step_Inv E 0 _ s _ s1 I Hst Hd) as [I1 Hst1].
    assert (∀ o, live s1 o → live s o ∧ o ≠ w) as Hback.
    { intros o Ho. unfold live, s1 in Ho. cbn in Ho. apply elem_of_difference in Ho as [Ho Hne].
      split; [done|]. intros ->. by apply Hne, elem_of_singleton. }
    assert (size (alive s1) < n) as Hlt.
    { subst n. apply subset_size. split.
      - intros o Ho. by apply Hback.
      - intros Hsub. by destruct (Hback w (Hsub w Hw)). }
    destruct (IH (size (alive s1)) Hlt s1 eq_refl I1 Hst1) as [s2 Hs2].
    + intros x Hx. assert (held s x) as Hx0.
      { destruct Hx as [?|[?|(u & Hu & Hk)]]; [by left|by right; left|]. right. right. exists u. split; [|done]. by apply Hback. }
      apply Hh in Hx0 as Hl. unfold live, s1. cbn. apply elem_of_difference. split; [done|].
      intros ->%elem_of_singleton. done.
    + exists s2. by eapply settles_drop.
  - exists s. constructor. intros w. split; [|apply Hh]. intros Hl. destruct (decide (held s w)) as [|Hn']; [done|].
    exfalso. apply Hno. by exists w.
Qed.
Lemma rounds_exists n : ∀ s,
  older K → Inv s → stack s = [] → settled s → lk (ch s) → ∃ s', rounds n s s'.
Proof.
  induction n as [|n IH]; intros s Hold I Hst Hset Hlk; [exists s; constructor|].
  destruct (gc_ok (e_dbg E) (prio E s) (alive s) (objs s) (ch s) (i_c _ I)) as [Hok _].
  destruct (Hok Hlk) as (D & c' & Heq' & _).
  assert (∃ s1, step E 0 OGc s = Done OutUnit s1) as [s1 Hg]. { cbn [step]. rewrite Heq'. cbn. eauto. }
  destruct (step_Inv E 0 _ s _ s1 I Hst Hg) as [I1 Hst1].
  destruct (gc_done_effect E 0 s _ s1 I Hg) as [_ Hf].
  destruct (settles_exists s1 I1 Hst1) as [s2 Hs2].
  { intros w Hw. apply (fg_live _ _ _ _ Hf). apply Hset. destruct Hw as [?|[(v & Hv)|(u & Hu & Hk)]].
    - by left.
    - right. left. exists v. apply holds_knows in Hv as Hk. apply (fg_knows _ _ _ _ Hf) in Hk as [_ Hn].
      unfold holds in *. rewrite (fg_kept _ _ _ _ Hf v Hn), (fg_state_kept _ _ _ _ Hf v Hn) in Hv. done.
    - right. right. exists u. split; [|done]. by apply (fg_live _ _ _ _ Hf). }
  pose proof (round_is 0 s s1 s2 I Hst Hg Hs2) as Hr.
  destruct (IH s2 Hold (ro_Inv _ _ Hr) (ro_stack _ _ Hr) (ro_settled _ _ Hr) (ro_lk _ _ Hr Hlk)) as [s3 H3].
  exists s3. by eapply rounds_S.
Qed.
End OwnerFacts.
