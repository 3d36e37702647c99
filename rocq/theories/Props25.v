(** Properties: builders are kept alive by those who hold blueprints of them, and
    programs that use only what they hold never use one that is dropped (C58).
    Histories [oruns], [owns], [fair], [may], [kept], [made]: Owned.v. *)
From Verif Require Import OwnedTotal Props19 Demo.
From stdpp Require Import relations.

Section C58.
Context (E : env) (fields : bdef → gset obj) (keep : prog → gset obj → gset obj).
Notation settled_down := (settled_down fields).
Notation oruns := (oruns E fields keep).
Notation step_o := (step_o E fields keep).
Notation may := (may E fields keep).
Notation kept := (kept fields).
Notation made := (made fields).

(** ** Nothing dropped is used, nothing in use is dropped

    Whatever the user, holding [U], may do next: neither the call nor any builder run
    by it uses a builder that is dropped ([Illegal]), and no builder is dropped that
    is being built; nor when, afterwards, what nobody holds is dropped. *)
Theorem C58_no_dangling U l s n x :
  oruns U l s → may U x →
  match step_o n U x s with
  | Done r s1 => ∃ s', settled_down (U ∪ mentions_out r) s1 = Some s'
  | Panic k s1 => k ≠ PkCounterpart → ∃ s', settled_down U (unwound s1) = Some s'
  | NoFuel => True
  | Illegal => False
  end.
Proof. apply next_o. Qed.

(** Also when the user drops blueprints. *)
Theorem C58_release U U' l s : oruns U l s → U' ⊆ U → ∃ s', settled_down U' s = Some s' ∧ ch s' = ch s.
Proof.
  intros Hr HU. destruct (hist_o _ _ _ U l s Hr) as (I & Hst & A0 & A & HA & R & K & H & Hf & Hg & Ht).
  destruct (settled_ok E fields U' s A [] I H Hst (firm_sub _ _ _ _ Hf HU)) as (s' & A' & Hs & T & _); [intros ? ?%elem_of_nil; done|].
  exists s'. split; [done|]. exact (tu_ch _ _ _ _ T).
Qed.

Lemma r_stored_holds s A w : shows s A → r_stored A w ↔ ∃ v, holds s v w.
Proof.
  intros H. unfold r_stored, holds. setoid_rewrite (sh_art _ _ H). setoid_rewrite (sh_state _ _ H). split.
  - intros [(o & b & Hb & Hw)|(o & v & Hv & Hw)]; exists o; [left|right]; eauto.
  - intros (o & [(b & Hb & Hw)|(v & Hv & Hw)]); [left|right]; eauto.
Qed.
Lemma r_part_made s A x y : shows s A → r_part fields A x y ↔ y ∈ made s x.
Proof.
  intros H. unfold r_part, Owned.made. rewrite (sh_who _ _ H). destruct (objs s !! x) as [[d a]|]; split.
  - by intros (d' & a' & [= <- <-] & ?).
  - intros Hy. by exists d, a.
  - by intros (d' & a' & ? & _).
  - intros Hy. by apply elem_of_empty in Hy.
Qed.

(** ** A builder lives exactly as long as somebody holds it *)
Theorem C58_settled U l s : oruns U l s → settled (made s) U s ∧ older (made s).
Proof.
  intros Hr. destruct (hist_o _ _ _ U l s Hr) as (I & Hst & A0 & A & HA & R & K & H & Hf & Hg & Ht). split.
  - intros w. unfold live, held. rewrite <- (sh_live _ _ H), <- (r_stored_holds s A w H). setoid_rewrite <- (r_part_made s A _ w H). split.
    + intros Hl. destruct (Ht w Hl) as [?|[?|(u & Hu & Hp)]]; [by left|by right; left|]. right. right. exists u. split; [|done]. unfold live. by rewrite <- (sh_live _ _ H).
    + intros [Hw|[Hw|(u & Hu & Hp)]]; [by apply (fm_held _ _ _ Hf)|by apply (fm_stored _ _ _ Hf)|]. apply (fm_part _ _ _ Hf u); [|done].
      unfold live in Hu. by rewrite (sh_live _ _ H).
  - intros u w Hw. apply (r_part_made s A u w H) in Hw as (d & a & Hu & Hw). by apply (Hg u d a Hu).
Qed.

Theorem C58_alive U l s w : oruns U l s → live s w ↔ kept U s w.
Proof.
  intros Hr. destruct (C58_settled U l s Hr) as [Hset Hold]. destruct (hist_o _ _ _ U l s Hr) as (I & _). split.
  - intros Hl. exact (live_from (made s) U s w I Hold Hset Hl).
  - intros (x & Hx & Hp). exact (held_path (made s) U s x w Hset Hx Hp).
Qed.

(** So when the user has dropped all blueprints and emptied the cache, in whatever
    order, no builder is left: the cache does not leak. *)
Theorem C58_no_leak l s y : oruns ∅ ((OClearAll, y) :: l) s → ∀ w, ¬ live s w.
Proof.
  intros Hr w. rewrite (C58_alive _ _ _ w Hr). intros (x & [Hx|(v & Hv)] & _); [by apply elem_of_empty in Hx|].
  destruct (hist_o _ _ _ _ _ s Hr) as (I & Hst & A0 & A & HA & R & K & H & Hf & Hg & Ht).
  apply (ex_intro (λ v, holds s v x)) in Hv as Hv'. apply (r_stored_holds s A x H) in Hv'.
  inversion HA as [|l' A1 x' y' A' HA' Hc Hy]; subst. inversion Hc as [x' A2 A3 y' A4 N1 N2 R' Hrc| | | | | | | ]; subst.
  inversion Hrc; subst; [by match goal with Hm : mut_of _ _ |- _ => destruct Hm as [[f ?]|[f ?]] end|].
  destruct Hv' as [(o & b & Hb & _)|(o & b & Hb & _)]; [rewrite (kb_art _ _ K) in Hb|rewrite (kb_state _ _ K) in Hb]; cbn in Hb;
    by rewrite lookup_empty in Hb.
Qed.

(** ** [garbage_collection]

    Called often enough it leaves exactly what C50 says, of which nothing need be
    assumed here. *)
Theorem C58_reclaim U l s s' n :
  oruns U l s → collections E fields keep U n s s' → number_of_known (ch s) ≤ n →
  (∀ w, knows s' w ↔ knows s w ∧ ¬ doomed (made s) U s w) ∧
  (∀ w, knows s' w → cached s' w = cached s w ∧ state_of s' w = state_of s w) ∧
  (∀ u w, depends s' u w ↔ depends s u w ∧ ¬ doomed (made s) U s u ∧ ¬ doomed (made s) U s w) ∧
  (∀ w, live s' w ↔ ∃ x, (x ∈ U ∨ ∃ v, knows s v ∧ ¬ doomed (made s) U s v ∧ holds s v x) ∧ rtc (λ x y, y ∈ made s x) x w).
Proof.
  intros Hr Hc Hn. destruct (C58_settled U l s Hr) as [Hset Hold]. destruct (hist_o _ _ _ U l s Hr) as (I & Hst & _).
  assert (∀ K, K = made s → chain K U n s s') as Hch.
  { clear Hn I Hst Hset Hold. revert l Hr. induction Hc as [s|n m s s1 s2 s3 Hg Hs Hc IH]; intros l Hr K HK; [constructor|].
    assert (oruns U ((OGc, Returned OutUnit) :: l) s2) as Hr2.
    { pose proof (oruns_done E fields keep U l s m OGc OutUnit s1 s2 Hr Logic.I Hg) as X. cbn [mentions_out] in X.
      rewrite (right_id_L ∅ (∪) U) in X. by apply X. }
    destruct (hist_o _ _ _ U l s Hr) as (I & Hst & _). destruct (hist_o _ _ _ U _ s2 Hr2) as (I2 & Hst2 & _).
    destruct (step_Inv E m OGc s _ s1 I Hst Hg) as [I1 Hst1]. destruct (gc_done_effect E m s _ s1 I Hg) as [_ Hf].
    assert (ch s2 = ch s1 ∧ objs s2 = objs s1) as [Hch Hob].
    { split; [|exact (settle_objs fields _ _ _ _ Hs)]. clear - Hs. unfold Owned.settled_down in Hs. revert Hs. generalize (size (alive s1)) as k.
      intros k. revert s1. induction k as [|k IHk]; intros s1; cbn [settle]; [by intros [= <-]|].
      destruct (unheld _ _ _) as [|w' ?]; [by intros [= <-]|]. destruct (drop_obj w' s1) as [sx|] eqn:Hd; [|done].
      apply drop_Some in Hd as (_ & _ & ->). intros ->%IHk. done. }
    assert (objs s1 = objs s) as Hob1.
    { clear - Hg. cbn in Hg. destruct (garbage_collection _ _ _ _) as [c|k c|]; try done. by injection Hg as <-. }
    assert (made s2 = made s) as Hm by (unfold Owned.made; by rewrite Hob, Hob1).
    econstructor; [|apply (IH _ Hr2 K); congruence].
    apply (round_of E K U m s s1 s2); try done. subst K. rewrite <- Hm. by apply (C58_settled U _ s2 Hr2). }
  destruct (chain_is (made s) U n s s' Hold I Hst Hset (Hch _ eq_refl)) as [Ho Hall].
  exact (reclaimed (made s) U s s' Hold Ho (Hall Hn)).
Qed.

(** ** The calls do what they should *)

(** It is the reference cache, with others dropping builders (ThreadSpec.v), none of
    which is one the user holds. *)
Theorem C58_reference U l s :
  oruns U l s → ∃ A0 A, truns (e_ask E) (e_kind E) l A0 ∧ r_others (e_ask E) (elements U) A0 A ∧ shows s A.
Proof. intros Hr. destruct (hist_o _ _ _ U l s Hr) as (_ & _ & A0 & A & HA & R & _ & H & _). by exists A0, A. Qed.

Theorem C58_panics U l s n x k s' :
  oruns U l s → may U x → step_o n U x s = Panic k s' →
  k = PkUser ∨ (k = PkGcIndex ∧ x = OGc) ∨ (k = PkCounterpart ∧ ∃ o f, x = OGetMut o f ∨ x = OLookupMut o f).
Proof.
  intros Hr Hm Hs. destruct (hist_o _ _ _ U l s Hr) as (I & Hst & A0 & A & HA & R & K & H & Hf & Hg & Ht).
  pose proof (call_o_sound _ _ _ U x A A0 s n I Hst H Hf Hg Hm R K) as X. rewrite Hs in X. destruct X as (A1 & Hc & _).
  inversion Hc as [x' A2 A3 y A4 N1 N2 R' Hrc| | | | | | | ]; subst; auto. inversion Hrc; subst; auto.
  right; right. split; [done|]. match goal with Hm : mut_of _ _ |- _ => destruct Hm as [[f ->]|[f ->]]; eauto end.
Qed.

(** [get*] returns what evaluating the builder from scratch gives, as long as all
    builders made are pure and the user does not write into artifacts. *)
Definition unwritten (l : list (op * answer)) : Prop := ∀ o f y, (OGetMut o f, y) ∉ l ∧ (OLookupMut o f, y) ∉ l.
Lemma unwritten_mut l : unwritten l → ∀ x y, (x, y) ∈ l → no_mut x.
Proof. intros H x y Hy. destruct x; try done; by destruct (H o f y). Qed.
Lemma good_defs (Q : bdef → Prop) s : (∀ w d, defs s w = Some d → Q d) ↔ good Q s.
Proof.
  split.
  - intros H o d a Ho. apply (H o). unfold defs. by rewrite Ho.
  - intros H w d. unfold defs. destruct (objs s !! w) as [[d' a]|] eqn:Ho; [|done]. cbn. intros [= ->]. by eapply H.
Qed.

Lemma get_transparent_o U l s n h o :
  oruns U l s → unwritten l → may U (OGet h o) →
  match step_o n U (OGet h o) s with
  | Done r s' => (∀ w d, defs s' w = Some d → pure_prog (bd_body d)) →
      (∃ x, evals (defs s') (config s') o (EvRet x) ∧ r = OutRes (handed h x)) ∧
      ∀ w d, defs s w = Some d → defs s' w = Some d ∧ config s' w = config s w
  | Panic k s' => (∀ w d, defs s' w = Some d → pure_prog (bd_body d)) →
      evals (defs s') (config s') o EvPanic ∧
      ∀ w d, defs s w = Some d → defs s' w = Some d ∧ config s' w = config s w
  | NoFuel => True
  | Illegal => False
  end.
Proof.
  intros Hr Hu Hm. destruct (hist_o _ _ _ U l s Hr) as (I & Hst & A0 & A & HA & R & K & H & Hf & Hg & Ht).
  destruct (truns_fine _ _ l A0 HA (unwritten_mut l Hu)) as [W0 Hok].
  assert (∀ A' s', shows s' A' → rgrow A0 A' → ∀ w d, defs s w = Some d → defs s' w = Some d ∧ config s' w = config s w) as Hold.
  { intros A' s' H' G w d. destruct (shows_defs s A H) as [D1 D2], (shows_defs s' A' H') as [D1' D2'].
    rewrite <- D1, <- D1', <- D2, <- D2'. intros Hd.
    assert (r_def A w = r_def A0 w ∧ r_conf A w = r_conf A0 w) as [E1 E2] by (unfold r_conf, r_def; by rewrite (kb_state _ _ K), (kb_who _ _ K)).
    rewrite E1 in Hd. rewrite E2. split; [by apply (def_mono A0); [apply G|]|]. apply (rg_conf _ _ G). by eapply def_who. }
  pose proof (call_o_sound _ _ _ U (OGet h o) A A0 s n I Hst H Hf Hg Hm R K) as X.
  destruct (step_o n U (OGet h o) s) as [r s'|k s'| |]; try done.
  - intros Hpure. destruct X as (I' & _ & A' & Hc & H' & _).
    assert (rpure A') as Hp by (apply (good_shows s' A'); [by apply good_defs|done]).
    inversion Hc as [x' A1 A2 y A'' N1 N2 R' Hrc|h' o' A1 A2 r' A'' R' Htg| | | | | | ]; subst; [by destruct (N1 h o)|].
    destruct (others_grow _ _ _ _ R' W0) as [G1 E1]. destruct (others_more _ _ _ _ R' W0) as [W1 _].
    assert (r_who A0 ⊆ r_who A') as Hwho.
    { etrans; [apply G1|]. exact (proj2 (proj1 (all_more _ _) _ _ _ _ _ _ Htg W1)). }
    destruct (proj1 (all_fine _ _) _ _ _ _ _ _ Htg W1 Hp (rgrow_rok _ _ G1 E1 (Hok (rpure_less _ _ Hwho Hp)))) as (_ & G2 & x & Hx & ->).
    split; [exists x; split; [by apply (rev_evals s' A')|done]|]. apply (Hold A' s' H'). by eapply rgrow_trans.
  - intros Hpure. destruct X as (A' & Hc & X).
    inversion Hc as [x' A1 A2 y A'' N1 N2 R' Hrc| |h' o' A1 A2 A'' R' Htg| | | | | ]; subst; [by destruct (N1 h o)|].
    destruct X as (I' & H' & _); [done|].
    assert (rpure A') as Hp by (apply (good_shows s' A'); [by apply good_defs|done]).
    destruct (others_grow _ _ _ _ R' W0) as [G1 E1]. destruct (others_more _ _ _ _ R' W0) as [W1 _].
    assert (r_who A0 ⊆ r_who A') as Hwho.
    { etrans; [apply G1|]. exact (proj2 (proj1 (all_more _ _) _ _ _ _ _ _ Htg W1)). }
    destruct (proj1 (all_fine _ _) _ _ _ _ _ _ Htg W1 Hp (rgrow_rok _ _ G1 E1 (Hok (rpure_less _ _ Hwho Hp)))) as (_ & G2 & Hx).
    split; [by apply (rev_evals s' A')|]. apply (Hold A' s' H'). by eapply rgrow_trans.
Qed.
Theorem C58_get U l s n h o :
  oruns U l s → unwritten l → may U (OGet h o) →
  match step_o n U (OGet h o) s with
  | Done r s' => (∀ w d, defs s' w = Some d → pure_prog (bd_body d)) → ∃ x, evals (defs s') (config s') o (EvRet x) ∧ r = OutRes (handed h x)
  | Panic k s' => (∀ w d, defs s' w = Some d → pure_prog (bd_body d)) → evals (defs s') (config s') o EvPanic
  | NoFuel => True
  | Illegal => False
  end.
Proof.
  intros Hr Hu Hm. pose proof (get_transparent_o U l s n h o Hr Hu Hm) as X.
  destruct (step_o n U (OGet h o) s); try done; intros Hp; by apply X.
Qed.
Theorem C58_cached U l s o b :
  oruns U l s → unwritten l → (∀ w d, defs s w = Some d → pure_prog (bd_body d)) → cached s o = Some b →
  evals (defs s) (config s) o (EvRet (Ok b)).
Proof.
  intros Hr Hu Hpure Hb. destruct (hist_o _ _ _ U l s Hr) as (I & Hst & A0 & A & HA & R & K & H & Hf & Hg & Ht).
  destruct (truns_fine _ _ l A0 HA (unwritten_mut l Hu)) as [W0 Hok].
  destruct (others_grow _ _ _ _ R W0) as [G1 E1].
  assert (rpure A) as Hp by (apply (good_shows s A); [by apply good_defs|done]).
  apply (rev_evals s A o _ H). apply (rgrow_rok _ _ G1 E1 (Hok (rpure_less _ _ (rg_who _ _ G1) Hp))). by rewrite (sh_art _ _ H).
Qed.

(** And it returns that if evaluating from scratch ends: with what the user holds
    there is no way a [get*] could fail for want of a builder. *)
Theorem C58_total U l s n h o p x p' :
  oruns U l s → unwritten l → may U (OGet h o) →
  (∀ w d, defs s w = Some d → pure_prog (bd_body d) ∧ oblivious (bd_body d)) →
  eval (defs s) (config s) n o p = Some (x, p') →
  match step_o n U (OGet h o) s with
  | Done r _ => ∃ y rv, x = EvRet y ∧ r = OutRes rv ∧ strip_rval rv = strip_rval (handed h y)
  | Panic _ _ => x = EvPanic
  | NoFuel | Illegal => False
  end.
Proof.
  intros Hr Hu Hm Hdefs Hev. pose proof (get_transparent_o U l s n h o Hr Hu Hm) as X.
  pose proof (eval_sound _ _ _ _ _ _ _ Hev) as Hx.
  set (Q := λ d, pure_prog (bd_body d) ∧ oblivious (bd_body d)). assert (good Q s) as Hgd by (by apply good_defs).
  assert (keeps_good Q (step_o n U (OGet h o) s)) as [Y1 Y2].
  { cbn [Owned.step_o]. pose proof (good_get_o E Q (build_o E fields keep n U) h o s (good_build_o E fields keep Q (λ d H, proj1 H) n U) Hgd) as [Z1 Z2].
    destruct (get_o _ _ _ _ _) as [r s1|k s1| |]; [split; [|done]; intros ? ? [= <- <-]; by eapply Z1|split; [done|]; intros ? ? [= <- <-]; by eapply Z2|by split|by split]. }
  destruct (step_o n U (OGet h o) s) as [r s'|k s'| |] eqn:Hs; [| | |done].
  - specialize (Y1 _ _ eq_refl). assert (∀ w d, defs s' w = Some d → Q d) as Hd by (by apply good_defs).
    destruct X as [(y & Hy & ->) Hb]; [intros w d Hw; by apply (Hd w)|].
    apply (proj1 (evals_mono _ _ (defs s') (config s') Hb)) in Hx.
    pose proof (proj1 (evals_det _ _ (λ w d Hw, proj2 (Hd w d Hw))) o _ Hy _ Hx) as Heq.
    destruct x as [z|]; [|done]. cbn in Heq. injection Heq as Heq. exists z, (handed h y). split_and!; [done..|]. by apply strip_handed.
  - specialize (Y2 _ _ eq_refl). assert (∀ w d, defs s' w = Some d → Q d) as Hd by (by apply good_defs).
    destruct X as [Hy Hb]; [intros w d Hw; by apply (Hd w)|].
    apply (proj1 (evals_mono _ _ (defs s') (config s') Hb)) in Hx.
    pose proof (proj1 (evals_det _ _ (λ w d Hw, proj2 (Hd w d Hw))) o _ Hy _ Hx) as Heq. by destruct x.
  - clear X Y1 Y2. destruct (hist_o _ _ _ U l s Hr) as (I & Hst & A0 & A & HA & R & K & H & Hf & Hg & Ht).
    destruct (truns_fine _ _ l A0 HA (unwritten_mut l Hu)) as [W0 Hok]. destruct (others_grow _ _ _ _ R W0) as [G1 E1].
    assert (rpure A) as Hp by (apply (good_shows s A); [apply good_defs; intros w d Hw; by apply (Hdefs w)|done]).
    pose proof (rgrow_rok _ _ G1 E1 (Hok (rpure_less _ _ (rg_who _ _ G1) Hp))) as Hrok.
    destruct Hm as [HoU Hh].
    pose proof (get_o_total E fields keep Q (defs s) (config s) n (build_o E fields keep n) U h o s A p (x, p')
      (build_o_total E fields keep Q (λ d H, proj1 H) (λ d H, proj2 H) (defs s) (config s) n) I H Hf Hg) as Y. rewrite Hst in Y.
    specialize (Y ltac:(intros ? ?%elem_of_nil; done) ltac:(exists o; split; [done|apply rtc_refl]) Hrok Hgd).
    apply Y; [|exact Hev|].
    + intros w d Hd. destruct (shows_defs s A H) as [D1 D2]. by rewrite D1, D2.
    + cbn [Owned.step_o] in Hs. by destruct (get_o _ _ _ _ _).
Qed.
End C58.
Print Assumptions C58_no_dangling.
Print Assumptions C58_release.
Print Assumptions C58_settled.
Print Assumptions C58_alive.
Print Assumptions C58_no_leak.
Print Assumptions C58_reclaim.
Print Assumptions C58_reference.
Print Assumptions C58_panics.
Print Assumptions C58_get.
Print Assumptions C58_cached.
Print Assumptions C58_total.

(** ** Example

    Builder 0 is a leaf; the artifact of 1 is a blueprint of 0, which 1 has in a
    field; 2 has a blueprint of 1 in a field: it resolves it, then resolves what it
    was given, 0, then makes a builder of its own, 3, and resolves that. *)
Definition ret_num (n : N) : prog := PNewBin (VNum n) (λ b, PRet (Ok b)).
Definition o_leaf : bdef := BDef 20 0 (Some VUnit) (ret_num 7).
Definition o_gives : bdef := BDef 21 0 (Some VUnit) (PNewBin (VObj 0) (λ b, PRet (Ok b))).
Definition o_uses : bdef := BDef 22 0 (Some VUnit)
  (PResolve HBin 1 (λ r,
     match r with
     | RvBin (Bin _ (VObj x)) => PResolve HBin x (λ _, PNew o_leaf (λ t, PResolve HBin t (λ _, ret_num 8)))
     | _ => PPanic
     end)).
Definition o_fields (d : bdef) : gset obj := match bd_aty d with 21%N => {[0%N]} | 22%N => {[1%N]} | _ => ∅ end.
(** Local variables live until the end. *)
Definition o_keep (p : prog) (L : gset obj) : gset obj := L.

Lemma o_fair d : d = o_leaf ∨ d = o_gives ∨ d = o_uses → fair env_s o_fields o_keep d.
Proof.
  assert (fair env_s o_fields o_keep o_leaf) as Hl by (split; [cbn; set_solver|]; cbn; intros n; apply empty_subseteq).
  intros [-> |[-> | ->]]; [exact Hl|..].
  - split; [cbn; set_solver|]. cbn. intros n. set_solver.
  - split; [cbn; set_solver|]. cbn [owns o_uses bd_body]. unfold locals, o_keep. split; [cbn; set_solver|]. split; [done|]. intros r.
    destruct r as [[p v]|v|v]; [|done..]. destruct v; try done. cbn [owns]. unfold locals, o_keep.
    split; [cbn; set_solver|]. split; [done|]. intros r. cbn [owns]. split.
    + split; [cbn; set_solver|]. split; [cbn; set_solver|]. cbn. intros n. apply empty_subseteq.
    + intros t. split; [cbn; unfold locals, o_keep; set_solver|]. split; [done|]. intros r'. cbn. intros n. apply empty_subseteq.
Qed.

(** Doing calls, and dropping all blueprints but [U]; [None]: not allowed. *)
Inductive cmd := CCall (x : op) | CKeep (U : gset obj).
Definition may_b (U : gset obj) (x : op) : bool :=
  match x with
  | OAlloc d => bool_decide (o_fields d ⊆ U)
  | OGet h o | OLookup h o => bool_decide (o ∈ U) && how_legal env_s h
  | ODynState o | OGetDynState o | OInvalidate o | OPurge o | OIsKnown o => bool_decide (o ∈ U)
  | OClearArtifacts | OClearAll | OGc | ONumKnown => true
  | _ => false
  end.
Fixpoint play_o (cs : list cmd) (U : gset obj) (l : list (op * answer)) (s : st) : option (gset obj * list (op * answer) * st) :=
  match cs with
  | [] => Some (U, l, s)
  | CKeep U' :: cs =>
    if bool_decide (U' ⊆ U) then match settled_down o_fields U' s with Some s' => play_o cs U' l s' | None => None end else None
  | CCall x :: cs =>
    if may_b U x then
      match step_o env_s o_fields o_keep 10 U x s with
      | Done r s1 =>
        match settled_down o_fields (U ∪ mentions_out r) s1 with
        | Some s' => play_o cs (U ∪ mentions_out r) ((x, Returned r) :: l) s'
        | None => None
        end
      | _ => None
      end
    else None
  end.
Lemma may_b_ok U x : may_b U x = true → (∀ d, x = OAlloc d → fair env_s o_fields o_keep d) → may env_s o_fields o_keep U x.
Proof.
  intros H Hd. destruct x; cbn in H |- *; try done; try (by apply bool_decide_eq_true_1 in H);
    try (apply andb_true_iff in H as [H1 H2]; by apply bool_decide_eq_true_1 in H1).
  apply bool_decide_eq_true_1 in H. split; [done|]. by apply Hd.
Qed.
Lemma play_o_ok cs U l s U' l' s' :
  play_o cs U l s = Some (U', l', s') → (∀ d, CCall (OAlloc d) ∈ cs → fair env_s o_fields o_keep d) →
  oruns env_s o_fields o_keep U l s → oruns env_s o_fields o_keep U' l' s'.
Proof.
  revert U l s. induction cs as [|[x|U1] cs IH]; intros U l s; cbn [play_o]; intros H Hd Hr.
  - injection H as <- <- <-. exact Hr.
  - destruct (may_b U x) eqn:Hm; [|done]. destruct (step_o _ _ _ _ _ _ _) as [r s1| | |] eqn:Hs; try done.
    destruct (settled_down _ _ _) as [s2|] eqn:Hse; [|done]. eapply (IH _ _ _ H); [intros d Hin; apply Hd; by right|].
    eapply oruns_done; [exact Hr| |exact Hs|exact Hse]. apply may_b_ok; [done|]. intros d ->. apply Hd. left.
  - case_bool_decide as HU; [|done]. destruct (settled_down _ _ _) as [s2|] eqn:Hse; [|done].
    eapply (IH _ _ _ H); [intros d Hin; apply Hd; by right|]. by eapply oruns_release.
Qed.

Definition o_make : list cmd := [CCall (OAlloc o_leaf); CCall (OAlloc o_gives); CCall (OAlloc o_uses); CKeep {[2%N]}].
Definition o_get : list cmd := o_make ++ [CCall (OGet HBin 2%N)].
Definition o_drop : list cmd := o_get ++ [CKeep ∅].
Definition o_gc : list cmd := o_drop ++ [CCall OGc; CCall OGc; CCall OGc; CCall OGc].
Definition o_clear : list cmd := o_get ++ [CCall OClearAll; CKeep ∅].
Definition o_end (cs : list cmd) : gset obj * list (op * answer) * st := default (∅, [], init_st) (play_o cs ∅ [] init_st).
Lemma o_runs cs :
  is_Some (play_o cs ∅ [] init_st) → (∀ d, CCall (OAlloc d) ∈ cs → d = o_leaf ∨ d = o_gives ∨ d = o_uses) →
  oruns env_s o_fields o_keep (o_end cs).1.1 (o_end cs).1.2 (o_end cs).2.
Proof.
  intros [[[U l] s] H] Hd. unfold o_end. rewrite H. cbn. apply (play_o_ok _ _ _ _ _ _ _ H); [|constructor]. intros d Hin. by apply o_fair, Hd.
Qed.
Lemma o_allocs cs : cs ∈ [o_make; o_get; o_drop; o_gc; o_clear] → ∀ d, CCall (OAlloc d) ∈ cs → d = o_leaf ∨ d = o_gives ∨ d = o_uses.
Proof.
  intros Hcs d Hin. assert (∃ cs', cs = o_make ++ cs' ∧ ∀ d, CCall (OAlloc d) ∉ cs') as (cs' & -> & Hn).
  { rewrite !elem_of_cons, elem_of_nil in Hcs. destruct_or!; subst; unfold o_clear, o_gc, o_drop, o_get; rewrite <- ?(assoc_L (++)).
    - exists []. split; [by rewrite app_nil_r|]. intros d' H. by apply elem_of_nil in H.
    - eexists. split; [reflexivity|]. intros d' H. cbn in H. rewrite !elem_of_cons, elem_of_nil in H. by destruct_or!.
    - eexists. split; [reflexivity|]. intros d' H. cbn in H. rewrite !elem_of_cons, elem_of_nil in H. by destruct_or!.
    - eexists. split; [reflexivity|]. intros d' H. cbn in H. rewrite !elem_of_cons, elem_of_nil in H. by destruct_or!.
    - eexists. split; [reflexivity|]. intros d' H. cbn in H. rewrite !elem_of_cons, elem_of_nil in H. by destruct_or!. }
  apply elem_of_app in Hin as [Hin|Hin]; [|by destruct (Hn d)]. unfold o_make in Hin. rewrite !elem_of_cons, elem_of_nil in Hin.
  destruct_or!; simplify_eq; auto.
Qed.
Definition seen (cs : list cmd) : list obj * list obj * list answer :=
  let '(U, l, s) := o_end cs in (elements (alive s), filter (λ o, bool_decide (knows_b s o = true)) [0; 1; 2; 3]%N, snd <$> take 1 l).
Theorem C58_applies :
  (** The user keeps a blueprint of 2 only: through fields 1 and 0 stay as well. *)
  (oruns env_s o_fields o_keep {[2%N]} (o_end o_make).1.2 (o_end o_make).2 ∧ (o_end o_make).1.1 = {[2%N]} ∧
   may env_s o_fields o_keep {[2%N]} (OGet HBin 2) ∧ seen o_make = ([0; 1; 2]%N, [], [Returned (OutObj 2)])) ∧
  (** [get] of 2: 3 is made, resolved and gone at the end; the cache still knows it. *)
  (oruns env_s o_fields o_keep {[2%N]} (o_end o_get).1.2 (o_end o_get).2 ∧ (o_end o_get).1.1 = {[2%N]} ∧
   seen o_get = ([0; 1; 2]%N, [0; 1; 2; 3]%N, [Returned (OutRes (RvBin (Bin 3 (VNum 8))))])) ∧
  (** The user drops 2: that drops 1.  The artifact of 1 still holds 0. *)
  (oruns env_s o_fields o_keep ∅ (o_end o_drop).1.2 (o_end o_drop).2 ∧ (seen o_drop).1 = ([0]%N, [0; 1; 2; 3]%N)) ∧
  (** After [garbage_collection] four times all is gone. *)
  (oruns env_s o_fields o_keep ∅ (o_end o_gc).1.2 (o_end o_gc).2 ∧ (seen o_gc).1 = ([], [])) ∧
  (** Or: [clear] the cache, then drop 2. *)
  (oruns env_s o_fields o_keep ∅ (o_end o_clear).1.2 (o_end o_clear).2 ∧ (seen o_clear).1 = ([], [])).
Proof.
  assert (∀ cs U, cs ∈ [o_make; o_get; o_drop; o_gc; o_clear] → is_Some (play_o cs ∅ [] init_st) → (o_end cs).1.1 = U →
    oruns env_s o_fields o_keep U (o_end cs).1.2 (o_end cs).2) as Hr.
  { intros cs U Hcs Hs <-. apply o_runs; [exact Hs|]. exact (o_allocs cs Hcs). }
  split; [|split; [|split; [|split]]].
  - split; [apply Hr; [left|apply (bool_decide_eq_true_1 _); vm_compute; reflexivity|apply (bool_decide_eq_true_1 _); vm_compute; reflexivity]|]. split; [apply (bool_decide_eq_true_1 _); vm_compute; reflexivity|].
    split; [|vm_compute; reflexivity]. split; [by apply elem_of_singleton|reflexivity].
  - split; [apply Hr; [right; left|apply (bool_decide_eq_true_1 _); vm_compute; reflexivity|apply (bool_decide_eq_true_1 _); vm_compute; reflexivity]|].
    split; [apply (bool_decide_eq_true_1 _); vm_compute; reflexivity|]. vm_compute; reflexivity.
  - split; [apply Hr; [right; right; left|apply (bool_decide_eq_true_1 _); vm_compute; reflexivity|apply (bool_decide_eq_true_1 _); vm_compute; reflexivity]|]. vm_compute; reflexivity.
  - split; [apply Hr; [right; right; right; left|apply (bool_decide_eq_true_1 _); vm_compute; reflexivity|apply (bool_decide_eq_true_1 _); vm_compute; reflexivity]|]. vm_compute; reflexivity.
  - split; [apply Hr; [right; right; right; right; left|apply (bool_decide_eq_true_1 _); vm_compute; reflexivity|apply (bool_decide_eq_true_1 _); vm_compute; reflexivity]|]. vm_compute; reflexivity.
Qed.
Print Assumptions C58_applies.

(** The rules matter.  A builder using a blueprint it does not hold (which needs
    [unsafe] in Rust) is not [fair], and runs into a dropped builder: 2 resolves 0
    without having 1, or anything else that holds it, in a field. *)
Definition o_rogue : bdef := BDef 23 0 (Some VUnit) (PResolve HBin 0 (λ _, ret_num 8)).
Theorem C58_rogue :
  ¬ fair env_s o_fields o_keep o_rogue ∧
  match play_o [CCall (OAlloc o_leaf); CCall (OAlloc o_rogue); CKeep {[1%N]}] ∅ [] init_st with
  | Some (U, _, s) => step_o env_s o_fields o_keep 10 U (OGet HBin 1) s = Illegal
  | None => False
  end.
Proof.
  split; [|vm_compute; reflexivity]. intros [_ [H _]]. cbn in H. apply elem_of_union in H as [H|H]; [by apply elem_of_empty in H|].
  unfold locals in H. apply elem_of_intersection in H as [_ H]. by apply elem_of_empty in H.
Qed.
Print Assumptions C58_rogue.
