(** Lemmas behind Props27.v: builders held by several parties. *)
From Verif Require Export Shared OwnedCalls.
From stdpp Require Import relations.

Section SharedFacts.
Context (E : env) (fields : bdef → gset obj) (keep : prog → gset obj → gset obj).
Notation parts := (parts fields).
Notation made := (made fields).
Notation unheld := (unheld fields).
Notation settle := (settle fields).
Notation settled_down := (settled_down fields).
Notation fair := (fair E fields keep).
Notation firm := (firm fields).
Notation borne := (borne fields).
Notation all_borne := (all_borne fields).
Notation all_fair := (all_fair E fields keep).
Notation tight := (tight fields).
Notation performs_s := (performs_s E fields).

(** ** What is held, on the state *)
Record sfirm (W : gset obj) (s : st) : Prop := {
  sf_held : W ⊆ alive s;
  sf_stored : stored (ch s) ⊆ alive s;
  sf_part : parts s ⊆ alive s;
}.
Record snum (s : st) : Prop := {
  sn_num : ∀ o x, objs s !! o = Some x → (o < nobj s)%N;
  sn_alive : ∀ o, o ∈ alive s → is_Some (objs s !! o);
}.
Definition sfair (s : st) : Prop := ∀ u d a, objs s !! u = Some (d, a) → fair d ∧ ∀ w, w ∈ fields d → (w < u)%N.
Definition sborne (W : gset obj) (s : st) (w : obj) : Prop := ∃ x, x ∈ W ∧ rtc (λ x y, y ∈ made s x) x w.
Definition stight (W : gset obj) (s : st) : Prop := ∀ w, w ∈ alive s → w ∈ W ∨ w ∈ stored (ch s) ∨ w ∈ parts s.

Lemma in_parts s u w : u ∈ alive s → w ∈ made s u → w ∈ parts s.
Proof.
  intros Hu Hw. unfold Owned.parts. apply elem_of_union_list. exists (made s u). split; [|done].
  apply elem_of_list_fmap. exists u. split; [done|]. by apply elem_of_elements.
Qed.
Lemma parts_in s w : w ∈ parts s → ∃ u, u ∈ alive s ∧ w ∈ made s u.
Proof.
  unfold Owned.parts. intros (X & HX & Hw)%elem_of_union_list. apply elem_of_list_fmap in HX as (u & -> & Hu). apply elem_of_elements in Hu. eauto.
Qed.
Lemma sfirm_sub W W' s : sfirm W s → W' ⊆ W → sfirm W' s.
Proof. intros [H1 H2 H3] HW. split; [set_solver|done..]. Qed.
Lemma sborne_alive W s w : sfirm W s → sborne W s w → w ∈ alive s.
Proof.
  intros H (x & Hx & Hp). apply (sf_held _ _ H) in Hx. induction Hp as [x|x y z Hxy _ IH]; [done|].
  apply IH. apply (sf_part _ _ H). by eapply in_parts.
Qed.
Lemma sborne_mono W W' s s' w : W ⊆ W' → objs s ⊆ objs s' → sborne W s w → sborne W' s' w.
Proof.
  intros HW Ho (x & Hx & Hp). exists x. split; [by apply HW|]. eapply rtc_subrel; [|exact Hp]. intros y z. unfold Owned.made.
  destruct (objs s !! y) as [[d a]|] eqn:Hy; [|intros Hz; by apply elem_of_empty in Hz]. by rewrite (lookup_weaken _ _ _ _ Hy Ho).
Qed.

Lemma settle_s n W s Bl :
  sfirm W s → (∀ u, u ∈ stack s → sborne W s u) → (∀ u, u ∈ Bl → sborne W s u) → size (alive s) ≤ n →
  ∃ s' w, settle n W s = Some s' ∧ performs E Bl w s = Some s' ∧ sfirm W s' ∧ stight W s' ∧
    objs s' = objs s ∧ ch s' = ch s ∧ stack s' = stack s ∧ nobj s' = nobj s ∧ alive s' ⊆ alive s.
Proof.
  revert s. induction n as [|n IH]; intros s Hf Hst HB Hn; cbn [Owned.settle].
  { exists s, []. split_and!; try done. intros w Hw. assert (size (alive s) = 0) as Hz by lia. apply size_empty_inv in Hz. set_solver. }
  destruct (unheld W s) as [|w l] eqn:Hu.
  { exists s, []. split_and!; try done.
    intros w Hw. destruct (decide (w ∈ W)) as [?|Hn1]; [by left|]. destruct (decide (w ∈ stored (ch s))) as [?|Hn2]; [by right; left|].
    destruct (decide (w ∈ parts s)) as [?|Hn3]; [by right; right|]. exfalso.
    assert (w ∈ unheld W s) as Hin; [|rewrite Hu in Hin; by apply elem_of_nil in Hin].
    apply elem_of_list_filter. split; [done|]. by apply elem_of_elements. }
  assert (w ∈ unheld W s) as Hw by (rewrite Hu; left). clear Hu.
  apply elem_of_list_filter in Hw as ((Hw1 & Hw2 & Hw3) & Hl). apply elem_of_elements in Hl.
  assert (∀ u, sborne W s u → u ≠ w) as Hnb.
  { intros u (x & Hx & Hp) ->. destruct (rtc_inv_r _ _ Hp) as [<-|(y & Hy & Hyw)]; [done|].
    apply Hw3. eapply in_parts; [|exact Hyw]. apply (sborne_alive W s y Hf). by exists x. }
  destruct (drop_obj w s) as [s1|] eqn:Hd.
  2: { exfalso. unfold drop_obj in Hd. rewrite (bool_decide_eq_true_2 _ Hl), bool_decide_eq_false_2 in Hd; [done|]. intros Hin%Hst. by apply Hnb in Hin. }
  apply drop_Some in Hd as Hd'. destruct Hd' as (_ & _ & Hs1).
  assert (alive s1 = alive s ∖ {[w]} ∧ ch s1 = ch s ∧ objs s1 = objs s ∧ stack s1 = stack s ∧ nobj s1 = nobj s) as (Ea & Ec & Eo & Es & En) by (by subst s1).
  assert (∀ u, made (tock s1) u = made s u) as Em by (intros u; unfold Owned.made; cbn; by rewrite Eo).
  assert (∀ u, sborne W s u → sborne W (tock s1) u) as Hbm by (intros u; apply sborne_mono; [done|cbn; by rewrite Eo]).
  destruct (IH (tock s1)) as (s' & l' & Hs & Hp & Hf' & Ht & Eo' & Ec' & Es' & En' & Ea').
  - split; cbn; rewrite ?Ea, ?Ec.
    + intros x Hx. apply elem_of_difference. split; [by apply (sf_held _ _ Hf)|]. apply not_elem_of_singleton. by intros ->.
    + intros x Hx. apply elem_of_difference. split; [by apply (sf_stored _ _ Hf)|]. apply not_elem_of_singleton. by intros ->.
    + intros x (u & Hu & Hx)%parts_in. cbn in Hu. rewrite Ea in Hu. rewrite Em in Hx. apply elem_of_difference in Hu as [Hu _].
      pose proof (in_parts s u x Hu Hx) as Hxp. apply elem_of_difference. split; [by apply (sf_part _ _ Hf)|]. apply not_elem_of_singleton. by intros ->.
  - cbn. rewrite Es. intros u Hu. by apply Hbm, Hst.
  - intros u Hu. by apply Hbm, HB.
  - cbn. rewrite Ea, size_difference by set_solver. rewrite size_singleton. lia.
  - exists s', (ADrop w :: l'). split; [done|]. split.
    { cbn [performs perform]. rewrite bool_decide_eq_false_2; [by rewrite Hd|]. intros Hin%HB. by apply Hnb in Hin. }
    split_and!; [done|done|by rewrite Eo', <- Eo|by rewrite Ec', <- Ec|by rewrite Es', <- Es|by rewrite En', <- En|]. etrans; [exact Ea'|]. cbn. rewrite Ea. set_solver.
Qed.

(** ** A turn of the others *)
Lemma performs_then Bl w1 w2 s s1 s2 : performs E Bl w1 s = Some s1 → performs E Bl w2 s1 = Some s2 → performs E Bl (w1 ++ w2) s = Some s2.
Proof. intros H1 H2. by rewrite (performs_app E _ _ _ _ _ H1). Qed.

Lemma act_ok W Bl x V s :
  sfirm (W ∪ V) s → sfair s → snum s → (∀ d, x = XNew d → fair d) →
  match act_s E fields x V s with
  | Done V' s' => (∃ w, performs E Bl w s = Some s') ∧ sfirm (W ∪ V') s' ∧ sfair s' ∧ snum s' ∧
      objs s ⊆ objs s' ∧ ch s' = ch s ∧ stack s' = stack s ∧ alive s ⊆ alive s'
  | NoFuel => True
  | _ => False
  end.
Proof.
  intros Hf Hg Hn Hx. pose proof (sf_held _ _ Hf) as HWV. destruct (proj1 (union_subseteq _ _ _) HWV) as [HWa HVa].
  assert (∀ V' s', (∃ w, performs E Bl w s = Some s') → objs s' = objs s → ch s' = ch s → stack s' = stack s → alive s' = alive s → nobj s' = nobj s →
    V' ⊆ alive s → (∃ w, performs E Bl w s = Some s') ∧ sfirm (W ∪ V') s' ∧ sfair s' ∧ snum s' ∧
      objs s ⊆ objs s' ∧ ch s' = ch s ∧ stack s' = stack s ∧ alive s ⊆ alive s') as Hidle.
  { intros V' s' Hw Eo Ec Es Ea En HV. split; [done|]. split.
    { split; rewrite ?Ea, ?Ec; [|apply Hf|].
      - by apply union_subseteq.
      - intros z (u & Hu & Hz)%parts_in. rewrite Ea in Hu. unfold Owned.made in Hz. rewrite Eo in Hz. apply (sf_part _ _ Hf). by eapply in_parts. }
    split; [unfold sfair; by rewrite Eo|]. split; [split; rewrite ?Eo, ?En, ?Ea; apply Hn|]. split_and!; [by rewrite Eo|done|done|by rewrite Ea]. }
  destruct x as [d|X|X| | ]; cbn [act_s].
  - case_bool_decide as Hd; [|apply Hidle; done || by exists [ASleep]].
    destruct (alloc E d s) as [[o s']|] eqn:Ha; [|done].
    destruct (alloc_Some _ _ _ _ _ Ha) as (-> & Hs' & _).
    assert (objs s' = <[nobj s := (d, e_ask E (tick s))]> (objs s) ∧ ch s' = ch s ∧ stack s' = stack s ∧ alive s' = {[nobj s]} ∪ alive s ∧ nobj s' = N.succ (nobj s))
      as (Eo & Ec & Es & Ea & En) by (by subst s').
    clear Hs'. assert (objs s !! nobj s = None) as Hfr.
    { destruct (objs s !! nobj s) as [z|] eqn:Hz; [|done]. apply (sn_num _ Hn) in Hz. lia. }
    split; [exists [ANew d]; cbn [performs perform]; by rewrite Ha|]. split.
    { split; rewrite ?Ea, ?Ec.
      - clear - HWa HVa. set_solver.
      - pose proof (sf_stored _ _ Hf) as Hss. clear - Hss. set_solver.
      - intros z (u & Hu & Hz)%parts_in. apply elem_of_union_r. unfold Owned.made in Hz. rewrite Eo in Hz. rewrite Ea in Hu.
        destruct (decide (u = nobj s)) as [->|Hne]; [rewrite lookup_insert in Hz; apply HWV, elem_of_union_r, Hd, Hz|].
        rewrite lookup_insert_ne in Hz by done. apply (sf_part _ _ Hf). apply (in_parts s u); [clear - Hu Hne; set_solver|exact Hz]. }
    split.
    { intros u d' a'. rewrite Eo. destruct (decide (u = nobj s)) as [->|Hne]; [rewrite lookup_insert; intros [= <- <-]|rewrite lookup_insert_ne by done; apply Hg].
      split; [by apply Hx|]. intros w Hw. apply Hd in Hw. assert (w ∈ alive s) as Hl by (apply HWV; by apply elem_of_union_r).
      destruct (sn_alive _ Hn w Hl) as [y Hy]. by eapply sn_num. }
    split.
    { split; rewrite Eo.
      - intros o y. rewrite En. destruct (decide (o = nobj s)) as [->|Hne]; [lia|]. rewrite lookup_insert_ne by done. intros Hy%(sn_num _ Hn). lia.
      - intros o. rewrite Ea. destruct (decide (o = nobj s)) as [->|Hne]; [rewrite lookup_insert; eauto|]. rewrite lookup_insert_ne by done.
        intros Ho. apply (sn_alive _ Hn). clear - Ho Hne. set_solver. }
    split_and!; [rewrite Eo; by apply insert_subseteq|done|done|rewrite Ea; apply union_subseteq_r].
  - apply Hidle; [by exists [ASleep]|done..|]. etrans; [|exact HVa]. apply subseteq_difference_l. done.
  - apply Hidle; [by exists [ASleep]|done..|]. apply union_subseteq. split; [done|]. apply intersection_subseteq_r.
  - apply Hidle; [by exists [ABin]|done..].
  - apply Hidle; [by exists [ASleep]|done..].
Qed.

Lemma turn_ok W Bl l V s :
  sfirm (W ∪ V) s → sfair s → snum s → (∀ u, u ∈ stack s → sborne W s u) → (∀ u, u ∈ Bl → sborne W s u) → (∀ d, XNew d ∈ l → fair d) →
  match performs_s W l V s with
  | Done V' s' => (∃ w, performs E Bl w s = Some s') ∧ sfirm (W ∪ V') s' ∧ sfair s' ∧ snum s' ∧ stight (W ∪ V') s' ∧
      objs s ⊆ objs s' ∧ ch s' = ch s ∧ stack s' = stack s
  | NoFuel => True
  | _ => False
  end.
Proof.
  revert V s. induction l as [|x l IH]; intros V s Hf Hg Hn Hst HB Hl; cbn [Shared.performs_s];
    (destruct (settle_s (size (alive s)) (W ∪ V) s Bl Hf) as (s1 & w1 & Hs & Hp1 & Hf1 & Ht1 & Eo1 & Ec1 & Es1 & En1 & Ea1);
      [intros u Hu; eapply sborne_mono; [|done|by apply Hst]; set_solver|intros u Hu; eapply sborne_mono; [|done|by apply HB]; set_solver|done|]);
    unfold Owned.settled_down; rewrite Hs;
    assert (sfair s1) as Hg1 by (unfold sfair; by rewrite Eo1);
    (assert (snum s1) as Hn1 by (split; [rewrite Eo1, En1; apply Hn|rewrite Eo1; intros o Ho; by apply (sn_alive _ Hn), Ea1])).
  - split; [eauto|]. split_and!; try done. by rewrite Eo1.
  - pose proof (act_ok W Bl x V s1 Hf1 Hg1 Hn1 ltac:(intros d ->; apply Hl; left)) as X.
    destruct (act_s E fields x V s1) as [V2 s2| | |] eqn:Hx; try done. destruct X as ((w2 & Hp2) & Hf2 & Hg2 & Hn2 & Eo2 & Ec2 & Es2 & _).
    assert (objs s ⊆ objs s2) as Ho2 by (by rewrite <- Eo1).
    specialize (IH V2 s2 Hf2 Hg2 Hn2).
    specialize (IH ltac:(rewrite Es2, Es1; intros u Hu; eapply sborne_mono; [done|exact Ho2|by apply Hst])
      ltac:(intros u Hu; eapply sborne_mono; [done|exact Ho2|by apply HB]) ltac:(intros d Hd; apply Hl; by right)).
    destruct (performs_s W l V2 s2) as [V3 s3| | |]; try done. destruct IH as ((w3 & Hp3) & Hf3 & Hg3 & Hn3 & Ht3 & Eo3 & Ec3 & Es3).
    split; [exists (w1 ++ w2 ++ w3); eapply performs_then; [done|]; by eapply performs_then|]. split_and!; try done; [by etrans|congruence|congruence].
Qed.
End SharedFacts.
