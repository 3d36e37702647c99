(** Properties: builders shared with other threads, and with doctors that keep the
    handles they are given (C60).
    Histories [sruns], what others do [sact]: Shared.v; [may], [fair], [kept], [made]:
    Owned.v. *)
From Verif Require Import SharedCalls OwnedTotal Props25 Props19 Demo.
From stdpp Require Import relations.

Section C60.
Context (E : env) (fields : bdef → gset obj) (keep : prog → gset obj → gset obj).
(** What others do in the turn they get at each time, and that builders they make are
    written in safe Rust, as those of the user. *)
Context (T : nat → list sact) (HT : ∀ t d, XNew d ∈ T t → fair E fields keep d).
Notation settled_down := (settled_down fields).
Notation sruns := (sruns E fields keep T).
Notation step_s := (step_s E fields keep T).
Notation may := (may E fields keep).
Notation kept := (kept fields).
Notation made := (made fields).

(** ** Nothing dropped is used, nothing in use is dropped

    Whatever others do meanwhile, and whatever the user, holding [U], may do next:
    neither the call nor any builder run by it uses a builder that is dropped
    ([Illegal]), and no builder is dropped that is being built. *)
Theorem C60_no_dangling U V l s n x :
  sruns U V l s → may U x →
  match step_s n U V x s with
  | (Done r s1, V') => ∃ s', settled_down (U ∪ mentions_out r ∪ V') s1 = Some s'
  | (Panic k s1, V') => k ≠ PkCounterpart → ∃ s', settled_down (U ∪ V') (unwound s1) = Some s'
  | (NoFuel, _) => True
  | (Illegal, _) => False
  end.
Proof using HT. intros Hr Hm. exact (next_s E fields keep T HT U V l s n x Hr Hm). Qed.

(** Also when blueprints are handed over or dropped, by anyone. *)
Theorem C60_share U V U' V' l s :
  sruns U V l s → U' ∪ V' ⊆ U ∪ V → ∃ s', settled_down (U' ∪ V') s = Some s' ∧ ch s' = ch s.
Proof using HT.
  intros Hr HU. destruct (hist_s _ _ _ _ HT U V l s Hr) as (I & Hst & A0 & A & HA & Hkn & R & H & Hf & Hg & Ht).
  destruct (settled_ok E fields (U' ∪ V') s A [] I H Hst (firm_sub _ _ _ _ Hf HU)) as (s' & A' & Hs & T' & _); [intros ? ?%elem_of_nil; done|].
  exists s'. split; [done|]. exact (tu_ch _ _ _ _ T').
Qed.

(** ** A builder lives exactly as long as somebody holds it *)
Theorem C60_settled U V l s : sruns U V l s → settled (made s) (U ∪ V) s ∧ older (made s).
Proof using HT.
  intros Hr. destruct (hist_s _ _ _ _ HT U V l s Hr) as (I & Hst & A0 & A & HA & Hkn & R & H & Hf & Hg & Ht). split.
  - intros w. unfold live, held. rewrite <- (sh_live _ _ H), <- (r_stored_holds s A w H). setoid_rewrite <- (r_part_made fields s A _ w H). split.
    + intros Hl. destruct (Ht w Hl) as [?|[?|(u & Hu & Hp)]]; [by left|by right; left|]. right. right. exists u. split; [|done]. unfold live. by rewrite <- (sh_live _ _ H).
    + intros [Hw|[Hw|(u & Hu & Hp)]]; [by apply (fm_held _ _ _ Hf)|by apply (fm_stored _ _ _ Hf)|]. apply (fm_part _ _ _ Hf u); [|done].
      unfold live in Hu. by rewrite (sh_live _ _ H).
  - intros u w Hw. apply (r_part_made fields s A u w H) in Hw as (d & a & Hu & Hw). by apply (Hg u d a Hu).
Qed.
Theorem C60_alive U V l s w : sruns U V l s → live s w ↔ kept (U ∪ V) s w.
Proof using HT.
  intros Hr. destruct (C60_settled U V l s Hr) as [Hset Hold]. destruct (hist_s _ _ _ _ HT U V l s Hr) as (I & _). split.
  - intros Hl. exact (live_from (made s) (U ∪ V) s w I Hold Hset Hl).
  - intros (x & Hx & Hp). exact (held_path (made s) (U ∪ V) s x w Hset Hx Hp).
Qed.

(** No leak: once everybody has dropped all blueprints, and the cache is emptied. *)
Theorem C60_no_leak l s y : sruns ∅ ∅ ((OClearAll, y) :: l) s → ∀ w, ¬ live s w.
Proof using HT.
  intros Hr w. rewrite (C60_alive _ _ _ _ w Hr). intros (x & [Hx|(v & Hv)] & _); [by apply elem_of_union in Hx as [Hx|Hx]; apply elem_of_empty in Hx|].
  destruct (hist_s _ _ _ _ HT _ _ _ s Hr) as (I & Hst & A0 & A & HA & Hkn & R & H & Hf & Hg & Ht).
  apply (ex_intro (λ v, holds s v x)) in Hv as Hv'. apply (r_stored_holds s A x H) in Hv'. destruct (others_alone _ _ _ _ R) as [L1 L2 _ _ _].
  inversion HA as [|l' A1 x' y' A' HA' Hc Hy]; subst. inversion Hc as [x' A2 A3 y' A4 N1 N2 R' Hrc| | | | | | | ]; subst.
  inversion Hrc; subst; [by match goal with Hm : mut_of _ _ |- _ => destruct Hm as [[f ?]|[f ?]] end|].
  destruct Hv' as [(o & b & Hb & _)|(o & b & Hb & _)]; [rewrite L1 in Hb|rewrite L2 in Hb]; cbn in Hb; by rewrite lookup_empty in Hb.
Qed.

(** ** The calls do what they should *)

(** It is the reference cache, with others making and dropping builders
    (ThreadSpec.v), dropping none that the user holds. *)
Theorem C60_reference U V l s :
  sruns U V l s → ∃ A0 A, truns (e_ask E) (e_kind E) l A0 ∧ r_others (e_ask E) (elements U) A0 A ∧ shows s A.
Proof using HT. intros Hr. destruct (hist_s _ _ _ _ HT U V l s Hr) as (_ & _ & A0 & A & HA & _ & R & H & _). by exists A0, A. Qed.

Theorem C60_panics U V l s n x k s' V' :
  sruns U V l s → may U x → step_s n U V x s = (Panic k s', V') →
  k = PkUser ∨ (k = PkGcIndex ∧ x = OGc) ∨ (k = PkCounterpart ∧ ∃ o f, x = OGetMut o f ∨ x = OLookupMut o f).
Proof using HT.
  intros Hr Hm Hs. destruct (hist_s _ _ _ _ HT U V l s Hr) as (I & Hst & A0 & A & HA & Hkn & R & H & Hf & Hg & Ht).
  pose proof (call_s_sound _ _ _ _ HT U V x A A0 s n I Hst H Hf Hg Hm R Hkn) as X. rewrite Hs in X. destruct X as (A1 & Hc & _).
  inversion Hc as [x' A2 A3 y A4 N1 N2 R' Hrc| | | | | | | ]; subst; auto. inversion Hrc; subst; auto.
  right; right. split; [done|]. match goal with Hm : mut_of _ _ |- _ => destruct Hm as [[f ->]|[f ->]]; eauto end.
Qed.

(** [get*] returns what evaluating the builder from scratch gives, as long as all
    builders made are pure and the user does not write into artifacts; and what the
    builders there before are, and their states, it leaves as they were. *)
Theorem C60_get U V l s n h o :
  sruns U V l s → unwritten l → may U (OGet h o) →
  match step_s n U V (OGet h o) s with
  | (Done r s', _) => (∀ w d, defs s' w = Some d → pure_prog (bd_body d)) →
      (∃ x, evals (defs s') (config s') o (EvRet x) ∧ r = OutRes (handed h x)) ∧
      ∀ w d, defs s w = Some d → defs s' w = Some d ∧ config s' w = config s w
  | (Panic k s', _) => (∀ w d, defs s' w = Some d → pure_prog (bd_body d)) →
      evals (defs s') (config s') o EvPanic ∧
      ∀ w d, defs s w = Some d → defs s' w = Some d ∧ config s' w = config s w
  | (NoFuel, _) => True
  | (Illegal, _) => False
  end.
Proof using HT.
  intros Hr Hu Hm. destruct (hist_s _ _ _ _ HT U V l s Hr) as (I & Hst & A0 & A & HA & Hkn & R & H & Hf & Hg & Ht).
  destruct (truns_fine _ _ l A0 HA (unwritten_mut l Hu)) as [W00 Hok0]. destruct (others_grow _ _ _ _ R W00) as [G0 E0].
  destruct (others_more _ _ _ _ R W00) as [W0 _].
  assert (rpure A → rok A) as Hok.
  { intros Hp. exact (rgrow_rok _ _ G0 E0 (Hok0 (rpure_less _ _ (rg_who _ _ G0) Hp))). }
  assert (∀ A' s', shows s' A' → rgrow A A' → ∀ w d, defs s w = Some d → defs s' w = Some d ∧ config s' w = config s w) as Hold.
  { intros A' s' H' G w d. destruct (shows_defs s A H) as [D1 D2], (shows_defs s' A' H') as [D1' D2'].
    rewrite <- D1, <- D1', <- D2, <- D2'. intros Hd. split; [by apply (def_mono A); [apply G|]|]. apply (rg_conf _ _ G). by eapply def_who. }
  pose proof (call_s_sound _ _ _ _ HT U V (OGet h o) A A s n I Hst H Hf Hg Hm (rtc_refl _ _) (shows_numbered s A I H)) as X. clear dependent A0.
  destruct (step_s n U V (OGet h o) s) as [[r s'|k s'| |] V']; try done.
  - intros Hpure. destruct X as (I' & _ & A' & Hc & H' & _).
    assert (rpure A') as Hp by (apply (good_shows s' A'); [by apply good_defs|done]).
    inversion Hc as [x' A1 A2 y A'' N1 N2 R' Hrc|h' o' A1 A2 r' A'' R' Htg| | | | | | ]; subst; [by destruct (N1 h o)|].
    destruct (others_grow _ _ _ _ R' W0) as [G1 E1]. destruct (others_more _ _ _ _ R' W0) as [W1 _].
    assert (r_who A ⊆ r_who A') as Hwho.
    { etrans; [apply G1|]. exact (proj2 (proj1 (all_more _ _) _ _ _ _ _ _ Htg W1)). }
    destruct (proj1 (all_fine _ _) _ _ _ _ _ _ Htg W1 Hp (rgrow_rok _ _ G1 E1 (Hok (rpure_less _ _ Hwho Hp)))) as (_ & G2 & x & Hx & ->).
    split; [exists x; split; [by apply (rev_evals s' A')|done]|]. apply (Hold A' s' H'). by eapply rgrow_trans.
  - intros Hpure. destruct X as (A' & Hc & X).
    inversion Hc as [x' A1 A2 y A'' N1 N2 R' Hrc| |h' o' A1 A2 A'' R' Htg| | | | | ]; subst; [by destruct (N1 h o)|].
    destruct X as (I' & H' & _); [done|].
    assert (rpure A') as Hp by (apply (good_shows s' A'); [by apply good_defs|done]).
    destruct (others_grow _ _ _ _ R' W0) as [G1 E1]. destruct (others_more _ _ _ _ R' W0) as [W1 _].
    assert (r_who A ⊆ r_who A') as Hwho.
    { etrans; [apply G1|]. exact (proj2 (proj1 (all_more _ _) _ _ _ _ _ _ Htg W1)). }
    destruct (proj1 (all_fine _ _) _ _ _ _ _ _ Htg W1 Hp (rgrow_rok _ _ G1 E1 (Hok (rpure_less _ _ Hwho Hp)))) as (_ & G2 & Hx).
    split; [by apply (rev_evals s' A')|]. apply (Hold A' s' H'). by eapply rgrow_trans.
Qed.
Theorem C60_cached U V l s o b :
  sruns U V l s → unwritten l → (∀ w d, defs s w = Some d → pure_prog (bd_body d)) → cached s o = Some b →
  evals (defs s) (config s) o (EvRet (Ok b)).
Proof using HT.
  intros Hr Hu Hpure Hb. destruct (hist_s _ _ _ _ HT U V l s Hr) as (I & Hst & A0 & A & HA & Hkn & R & H & Hf & Hg & Ht).
  destruct (truns_fine _ _ l A0 HA (unwritten_mut l Hu)) as [W0 Hok].
  destruct (others_grow _ _ _ _ R W0) as [G1 E1].
  assert (rpure A) as Hp by (apply (good_shows s A); [by apply good_defs|done]).
  apply (rev_evals s A o _ H). apply (rgrow_rok _ _ G1 E1 (Hok (rpure_less _ _ (rg_who _ _ G1) Hp))). by rewrite (sh_art _ _ H).
Qed.
End C60.
Print Assumptions C60_no_dangling.
Print Assumptions C60_share.
Print Assumptions C60_settled.
Print Assumptions C60_alive.
Print Assumptions C60_no_leak.
Print Assumptions C60_reference.
Print Assumptions C60_panics.
Print Assumptions C60_get.
Print Assumptions C60_cached.

(** ** Example

    The builders of C58's example: 2 uses 1, which gives 0, and makes a builder while
    being built.  [x_others t]: what others do at time [t].  During the [get] of 2 they
    cannot make an [o_gives] first, as they do not hold 0; then they make 3, are given
    0, make 4 of it, and drop 3; later, still during it, they are given all there is,
    also 5, which 2 made.  They drop 5 in the middle of a [garbage_collection]. *)
Definition x_others (t : nat) : list sact :=
  match t with
  | 6 => [XNew o_gives; XNew o_leaf; XTake {[0%N]}; XNew o_gives; XLose {[3%N]}]
  | 25 => [XTake {[0%N; 1%N; 2%N; 3%N; 4%N; 5%N; 6%N; 7%N]}]
  | 32 => [XLose {[5%N]}]
  | _ => [XSleep]
  end.
Lemma x_fair t d : XNew d ∈ x_others t → fair env_s o_fields o_keep d.
Proof.
  intros H. apply o_fair. unfold x_others in H. repeat (destruct t as [|t]; [rewrite ?elem_of_cons, elem_of_nil in H; by destruct_or?; simplify_eq; auto|]).
  rewrite ?elem_of_cons, elem_of_nil in H. by destruct_or?; simplify_eq.
Qed.

(** Doing calls, and handing over or dropping blueprints; [None]: not allowed. *)
Inductive xcmd := XCall (x : op) | XShare (U V : gset obj).
Fixpoint play_s (cs : list xcmd) (U V : gset obj) (l : list (op * answer)) (s : st)
    : option (gset obj * gset obj * list (op * answer) * st) :=
  match cs with
  | [] => Some (U, V, l, s)
  | XShare U' V' :: cs =>
    if bool_decide (U' ∪ V' ⊆ U ∪ V) then match settled_down o_fields (U' ∪ V') s with Some s' => play_s cs U' V' l s' | None => None end
    else None
  | XCall x :: cs =>
    if may_b U x then
      match step_s env_s o_fields o_keep x_others 10 U V x s with
      | (Done r s1, V') =>
        match settled_down o_fields (U ∪ mentions_out r ∪ V') s1 with
        | Some s' => play_s cs (U ∪ mentions_out r) V' ((x, Returned r) :: l) s'
        | None => None
        end
      | _ => None
      end
    else None
  end.
Lemma play_s_ok cs U V l s U' V' l' s' :
  play_s cs U V l s = Some (U', V', l', s') → (∀ d, XCall (OAlloc d) ∈ cs → fair env_s o_fields o_keep d) →
  sruns env_s o_fields o_keep x_others U V l s → sruns env_s o_fields o_keep x_others U' V' l' s'.
Proof.
  revert U V l s. induction cs as [|[x|U1 V1] cs IH]; intros U V l s; cbn [play_s]; intros H Hd Hr.
  - injection H as <- <- <- <-. exact Hr.
  - destruct (may_b U x) eqn:Hm; [|done]. destruct (step_s _ _ _ _ _ _ _ _ _) as [[r s1| | |] V1] eqn:Hs; try done.
    destruct (settled_down _ _ _) as [s2|] eqn:Hse; [|done]. eapply (IH _ _ _ _ H); [intros d Hin; apply Hd; by right|].
    eapply sruns_done; [exact Hr| |exact Hs|exact Hse]. apply may_b_ok; [done|]. intros d ->. apply Hd. left.
  - case_bool_decide as HU; [|done]. destruct (settled_down _ _ _) as [s2|] eqn:Hse; [|done].
    eapply (IH _ _ _ _ H); [intros d Hin; apply Hd; by right|]. by eapply sruns_share.
Qed.
Definition x_make : list xcmd := [XCall (OAlloc o_leaf); XCall (OAlloc o_gives); XCall (OAlloc o_uses); XShare {[2%N]} ∅].
Definition x_get : list xcmd := [XCall (OGet HBin 2%N)].
Definition x_drop : list xcmd := [XShare ∅ {[4%N; 5%N]}].
Definition x_gc : list xcmd := [XCall OGc].
Definition x_gone : list xcmd := [XShare ∅ ∅; XCall OGc; XCall OGc; XCall OGc].
Definition x_end (cs : list xcmd) := default (∅, ∅, [], init_st) (play_s (x_make ++ cs) ∅ ∅ [] init_st).
(** What the user holds, what others hold, what is alive, the last answer. *)
Definition x_seen (cs : list xcmd) : list obj * list obj * list obj * list answer :=
  let '(U, V, l, s) := x_end cs in (elements U, elements V, elements (alive s), snd <$> take 1 l).
Lemma x_runs cs :
  is_Some (play_s (x_make ++ cs) ∅ ∅ [] init_st) → (∀ d, XCall (OAlloc d) ∉ cs) →
  let '(U, V, l, s) := x_end cs in sruns env_s o_fields o_keep x_others U V l s.
Proof.
  intros [[[[U V] l] s] H] Hd. unfold x_end. rewrite H. cbn. apply (play_s_ok _ _ _ _ _ _ _ _ _ H); [|constructor].
  intros d [Hin|Hin]%elem_of_app; [|by destruct (Hd d)]. apply o_fair. unfold x_make in Hin. rewrite !elem_of_cons, elem_of_nil in Hin.
  destruct_or!; simplify_eq; auto.
Qed.
Theorem C60_applies :
  (∀ t d, XNew d ∈ x_others t → fair env_s o_fields o_keep d) ∧
  (∀ cs, cs ∈ [[]; x_get; x_get ++ x_drop; x_get ++ x_drop ++ x_gc; x_get ++ x_drop ++ x_gc ++ x_gone] →
     let '(U, V, l, s) := x_end cs in sruns env_s o_fields o_keep x_others U V l s) ∧
  may env_s o_fields o_keep {[2%N]} (OGet HBin 2) ∧
  (** The user holds 2, and so 1 and 0. *)
  x_seen [] = ([2]%N, [], [0; 1; 2]%N, [Returned (OutObj 2)]) ∧
  (** Then [get] of 2. *)
  x_seen x_get = ([2]%N, [0; 1; 5; 2; 4]%N, [0; 1; 5; 2; 4]%N, [Returned (OutRes (RvBin (Bin 3 (VNum 8))))]) ∧
  (** The user drops 2, the others all but 4, which has 0 in a field, and 5. *)
  (x_seen (x_get ++ x_drop)).1 = ([], [5; 4]%N, [0; 5; 4]%N) ∧
  (** [garbage_collection], with others dropping 5. *)
  x_seen (x_get ++ x_drop ++ x_gc) = ([], [4]%N, [0; 4]%N, [Returned OutUnit]) ∧
  (** They drop 4; the artifact of 1 holds 0; it is gone after [garbage_collection]. *)
  x_seen (x_get ++ x_drop ++ x_gc ++ x_gone) = ([], [], [], [Returned OutUnit]).
Proof.
  split; [exact x_fair|]. split.
  { intros cs Hcs. apply x_runs.
    - rewrite !elem_of_cons, elem_of_nil in Hcs. destruct_or!; subst; apply (bool_decide_eq_true_1 _); vm_compute; reflexivity.
    - intros d Hin. rewrite !elem_of_cons, elem_of_nil in Hcs. destruct_or!; subst;
        unfold x_get, x_drop, x_gc, x_gone in Hin; cbn [app] in Hin; rewrite ?elem_of_cons, elem_of_nil in Hin; by destruct_or?. }
  split; [split; [by apply elem_of_singleton|reflexivity]|].
  split; [vm_compute; reflexivity|]. split; [vm_compute; reflexivity|]. split; [vm_compute; reflexivity|].
  split; [vm_compute; reflexivity|]. vm_compute; reflexivity.
Qed.
Print Assumptions C60_applies.
