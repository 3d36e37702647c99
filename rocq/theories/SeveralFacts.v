(** Several caches: each is the reference cache. *)
From Verif Require Export Several RefCalls.
From stdpp Require Import relations.

(** ** What happens elsewhere *)

(** One thing that happens elsewhere in the program: time passes, a bin is made, a
    builder is made or dropped. *)
Inductive elsewhere1 : ref → ref → Prop :=
| el_tock A : elsewhere1 A (r_tock A)
| el_bin A : elsewhere1 A (r_newbin A)
| el_alloc A d a : r_free A a → elsewhere1 A (r_alloc d a A)
| el_drop A o : o ∈ r_live A → elsewhere1 A (r_drop o A).
Notation elsewhere := (rtc elsewhere1).

(** Histories of a reference cache in a program that does other things in between. *)
Inductive rlife (ask : nat → N) (kd : kind) : list (op * answer) → ref → Prop :=
| rlife_new : rlife ask kd [] new_ref
| rlife_else l A A' : rlife ask kd l A → elsewhere1 A A' → rlife ask kd l A'
| rlife_call l A x y A' : rlife ask kd l A → rcall ask kd x A y A' → y ≠ Panicked PkCounterpart → rlife ask kd ((x, y) :: l) A'.

Lemma rlife_elsewhere ask kd l A A' : rlife ask kd l A → elsewhere A A' → rlife ask kd l A'.
Proof. intros H He. induction He as [|A A1 A2 H1 _ IH]; [done|]. apply IH. by eapply rlife_else. Qed.

(** [B] with the rest of the world of [A]. *)
Definition over (B A : ref) : ref :=
  Ref (r_art B) (r_state B) (r_known B) (r_deps B) (r_stray B) (r_who A) (r_live A) (r_nobj A) (r_nbin A) (r_tick A) (r_log B).

Definition num (A : ref) : Prop := ∀ o x, r_who A !! o = Some x → (o < r_nobj A)%N.
(** The builders known to [B] exist. *)
Definition inside (B A : ref) : Prop := ∀ w, w ∈ r_known B → is_Some (r_who A !! w).
(** [B] knows no builder at the addresses of the new ones. *)
Definition apart (B A A' : ref) : Prop :=
  ∀ o d a w d', (r_nobj A ≤ o)%N → r_who A' !! o = Some (d, a) → w ∈ r_known B → r_who A !! w ≠ Some (d', a).

Record moved (A A' : ref) : Prop := {
  mv_num : num A';
  mv_who : r_who A ⊆ r_who A';
  mv_nobj : (r_nobj A ≤ r_nobj A')%N;
  mv_live : ∀ o, o ∈ r_live A' → o ∈ r_live A ∨ (r_nobj A ≤ o)%N;
  mv_else : ∀ B, inside B A → apart B A A' → elsewhere (over B A) (over B A');
}.
Definition moves (A A' : ref) : Prop := num A → moved A A'.

Lemma moves_same A A' : r_who A' = r_who A → r_live A' = r_live A → r_nobj A' = r_nobj A → r_nbin A' = r_nbin A → r_tick A' = r_tick A → moves A A'.
Proof.
  intros H1 H2 H3 H4 H5 N. split; [unfold num; by rewrite H1, H3|by rewrite H1|by rewrite H3|rewrite H2; by left|].
  intros B _ _. unfold over. rewrite H1, H2, H3, H4, H5. apply rtc_refl.
Qed.
Lemma moves_refl A : moves A A. Proof. by apply moves_same. Qed.
Lemma moves_trans A1 A2 A3 : moves A1 A2 → moves A2 A3 → moves A1 A3.
Proof.
  intros H1 H2 N. destruct (H1 N) as [N2 W2 O2 L2 E2]. destruct (H2 N2) as [N3 W3 O3 L3 E3]. split; [done|by etrans|lia| |].
  { intros o Ho. destruct (L3 o Ho) as [Ho2|?]; [by apply L2|right; lia]. }
  intros B Hin Hap. trans (over B A2).
  - apply E2; [done|]. intros o d a w d' Ho Hd. apply (Hap o d); [done|]. by eapply lookup_weaken.
  - apply E3.
    + intros w Hw. destruct (Hin w Hw) as [x Hx]. exists x. by eapply lookup_weaken.
    + intros o d a w d' Ho Hd Hw Hn. destruct (Hin w Hw) as [[e b] Hx].
      pose proof (lookup_weaken _ _ _ _ Hx W2) as Hx2. rewrite Hn in Hx2. injection Hx2 as <- <-.
      eapply (Hap o d); [lia|done|done|exact Hx].
Qed.
Lemma moves_tock A : moves A (r_tock A).
Proof. intros N. split; [done|done|done|by left|]. intros B _ _. apply rtc_once. apply (el_tock (over B A)). Qed.
Lemma moves_newbin A : moves A (r_newbin A).
Proof. intros N. split; [done|done|done|by left|]. intros B _ _. apply rtc_once. apply (el_bin (over B A)). Qed.
Lemma moves_drop o A : o ∈ r_live A → moves A (r_drop o A).
Proof. intros Ho N. split; [done|done|done|intros w Hw; left; cbn in Hw; set_solver|]. intros B _ _. apply rtc_once. by apply (el_drop (over B A)). Qed.
Lemma moves_alloc d a A : r_free A a → moves A (r_alloc d a A).
Proof.
  intros Hf N. split.
  - intros o x. cbn. intros [[<- _]|[_ H]]%lookup_insert_Some; [lia|]. specialize (N _ _ H). lia.
  - cbn. apply insert_subseteq. destruct (r_who A !! r_nobj A) eqn:E; [|done]. specialize (N _ _ E). lia.
  - cbn. lia.
  - cbn. intros o [->%elem_of_singleton|Ho]%elem_of_union; [right; lia|by left].
  - intros B Hin Hap. apply rtc_once. apply (el_alloc (over B A)). intros o [Ho|Ho]; cbn in Ho.
    + change (r_addr (over B A) o) with (r_addr A o). apply Hf. by left.
    + destruct (Hin o Ho) as [[d' a'] Hx]. unfold r_addr. cbn. rewrite Hx. cbn. intros [= ->].
      eapply (Hap (r_nobj A) d a o d'); [lia|cbn; by rewrite lookup_insert|done|done].
Qed.
Lemma moves_after A A1 A' : moves A1 A' →
  r_who A1 = r_who A → r_live A1 = r_live A → r_nobj A1 = r_nobj A → r_nbin A1 = r_nbin A → r_tick A1 = r_tick A → moves A A'.
Proof. intros H1 H2 H3 H4 H5 H6. eapply moves_trans; [|exact H1]. by apply moves_same. Qed.
Lemma moves_before A A1 A' : moves A A1 →
  r_who A' = r_who A1 → r_live A' = r_live A1 → r_nobj A' = r_nobj A1 → r_nbin A' = r_nbin A1 → r_tick A' = r_tick A1 → moves A A'.
Proof. intros H1 H2 H3 H4 H5 H6. eapply moves_trans; [exact H1|]. by apply moves_same. Qed.

Section Moves.
Context (ask : nat → N) (kd : kind).
Lemma build_moves :
  (∀ B h o A x A1, rget ask kd B h o A x A1 → moves A A1) ∧
  (∀ B o A x A1, rbuild ask kd B o A x A1 → moves A A1) ∧
  (∀ B u p A x A1, rrun ask kd B u p A x A1 → moves A A1).
Proof.
  apply ref_min.
  - intros. apply moves_refl.
  - intros B h o A b A1 Hl Hh Hb Hr IH. exact IH.
  - intros B h o A b A1 Hl Hh Hb Hr IH. exact IH.
  - intros B h o A A1 Hl Hh Hb Hr IH. exact IH.
  - intros. by apply moves_same.
  - intros B o A d v b A1 Hd Hv Hr IH. eapply moves_before; [eapply moves_after; [exact IH|done..]|done..].
  - intros B o A d v e A1 Hd Hv Hr IH. eapply moves_before; [eapply moves_after; [exact IH|done..]|done..].
  - intros B o A d v A1 Hd Hv Hr IH. eapply moves_after; [exact IH|done..].
  - intros. apply moves_refl.
  - intros. apply moves_refl.
  - intros B u h w k A r A1 x A2 Hg IH1 Hr IH2. eapply moves_trans; [eapply moves_after; [exact IH1|done..]|eapply moves_after; [exact IH2|done..]].
  - intros B u h w k A A1 Hg IH1. eapply moves_after; [exact IH1|done..].
  - intros B u k A v x A1 Hv Hr IH. exact IH.
  - intros B u v p A x A1 Hr IH. eapply moves_after; [exact IH|done..].
  - intros B u k A x A1 Hr IH. eapply moves_trans; [apply moves_tock|exact IH].
  - intros B u v k A x A1 Hr IH. eapply moves_trans; [apply moves_newbin|exact IH].
  - intros B u d k A x A1 Hf Hr IH. eapply moves_trans; [by apply moves_alloc|exact IH].
  - intros B u w p A x A1 Hl Hn Hr IH. eapply moves_trans; [by apply moves_drop|exact IH].
Qed.
Lemma moves_prepare o A : moves A (r_prepare o A).
Proof. unfold r_prepare. destruct (decide _); [by apply moves_same|apply moves_refl]. Qed.

Lemma call_moves x A y A1 : rcall ask kd x A y A1 → moves A A1.
Proof.
  destruct build_moves as (MG & MB & _).
  assert (∀ A0 A2, moves (r_tock A0) A2 → moves A0 A2) as T by (intros A0 A2 H; eapply moves_trans; [apply moves_tock|exact H]).
  destruct 1 as [d A Hfr|o A Hl|h o A r A1 Hg|h o A A1 Hg|h o A Hl Hh|x o u A Hm Hkd Hl Hu Hd|o f A B Hkd Hl Hno ->
    |o f A B b Hkd Hl Hno -> Hb|o f A B b A1 Hkd Hl Hno -> Hb Hr|o f A B e A1 Hkd Hl Hno -> Hb Hr|o f A B A1 Hkd Hl Hno -> Hb Hr
    |o A Hl|o A v Hl Hv|o A d v Hl Hv Hd Hi|o A d Hl Hv Hd Hi|o f A F B d v Hl HF -> Hd Hv|o f A F B d Hl HF -> Hd Hv Hi
    |o A F Hl HF|o A F Hl HF|A|A|A F Hs HF|A Hs|o A Hl|A].
  all: try (by apply moves_same). all: try (by eapply MG).
  - by apply moves_alloc.
  - by apply moves_drop.
  - eapply moves_trans; [apply moves_prepare|]. eapply moves_trans; [|apply moves_tock]. by apply moves_same.
  - eapply moves_trans; [apply moves_prepare|]. eapply moves_trans; [|apply moves_tock]. eapply moves_trans; [|apply moves_tock]. by apply moves_same.
  - eapply moves_trans; [apply moves_prepare|]. apply T. eapply moves_before; [eapply MB; exact Hr|done..].
  - eapply moves_trans; [apply moves_prepare|]. apply T. eapply MB; exact Hr.
  - eapply moves_trans; [apply moves_prepare|]. apply T. eapply MB; exact Hr.
  - apply T. by apply moves_same.
  - apply T. by apply moves_same.
  - apply T. by apply moves_same.
  - apply T. by apply moves_same.
  - apply T. by apply moves_same.
  - apply T. by apply moves_same.
Qed.
End Moves.

(** ** What a cache learns: builders that lived, or were made meanwhile *)
Definition learns (A A' : ref) (X : gset obj) : Prop :=
  (r_nobj A ≤ r_nobj A')%N ∧ (∀ o, o ∈ r_live A' → o ∈ r_live A ∨ (r_nobj A ≤ o)%N) ∧
  ∀ o, o ∈ r_known A' → o ∈ r_known A ∨ o ∈ X ∨ o ∈ r_live A ∨ (r_nobj A ≤ o)%N.
Lemma learns_trans A1 A2 A3 X Y : learns A1 A2 X → learns A2 A3 Y → Y ⊆ r_live A2 ∪ X → learns A1 A3 X.
Proof.
  intros (N1 & L1 & K1) (N2 & L2 & K2) HY. split_and!; [lia| |].
  - intros o Ho. destruct (L2 o Ho) as [?|?]; [by apply L1|right; lia].
  - intros o Ho. destruct (K2 o Ho) as [H|[H|[H|H]]]; [by apply K1| | |by do 3 right; lia].
    + apply HY, elem_of_union in H as [H|H]; [|tauto]. destruct (L1 o H); tauto.
    + destruct (L1 o H); tauto.
Qed.
Lemma learns_refl A X : learns A A X. Proof. split_and!; [done|tauto|tauto]. Qed.
Lemma learns_less A A' X : r_nobj A' = r_nobj A → r_live A' = r_live A → r_known A' ⊆ X ∪ r_known A → learns A A' X.
Proof. intros H1 H2 H3. split_and!; [by rewrite H1|rewrite H2; tauto|]. intros o Ho. apply H3 in Ho. set_solver. Qed.
Lemma learns_drop o A X : learns A (r_drop o A) X.
Proof. split_and!; cbn; [done|set_solver|tauto]. Qed.
Lemma learns_alloc d a A X : learns A (r_alloc d a A) X.
Proof. split_and!; cbn; [lia| |tauto]. intros o [->%elem_of_singleton|Ho]%elem_of_union; [right; lia|tauto]. Qed.
Lemma learns_sub A A' X Y : learns A A' X → X ⊆ Y ∪ r_live A → learns A A' Y.
Proof. intros (H1 & H2 & H3) HX. split_and!; [done..|]. intros o Ho. destruct (H3 o Ho) as [?|[?%HX|?]]; [tauto|set_solver|tauto]. Qed.

Ltac less := apply learns_less; cbn; [done|done|clear; set_solver].
Section Learn.
Context (ask : nat → N) (kd : kind).
Lemma build_learns :
  (∀ B h o A x A1, rget ask kd B h o A x A1 → o ∈ r_live A ∧ learns A A1 ∅) ∧
  (∀ B o A x A1, rbuild ask kd B o A x A1 → learns A A1 {[o]}) ∧
  (∀ B u p A x A1, rrun ask kd B u p A x A1 → learns A A1 ∅).
Proof.
  assert (∀ A A1 o, learns A A1 {[o]} → o ∈ r_live A → learns A A1 ∅) as Hlive by (intros A A1 o H Ho; eapply learns_sub; [exact H|set_solver]).
  apply ref_min.
  - intros. split; [done|apply learns_refl].
  - intros B h o A b A1 Hl Hh Hb Hr IH. split; [done|by eapply Hlive].
  - intros B h o A b A1 Hl Hh Hb Hr IH. split; [done|by eapply Hlive].
  - intros B h o A A1 Hl Hh Hb Hr IH. split; [done|by eapply Hlive].
  - intros. less.
  - intros B o A d v b A1 Hd Hv Hr IH. eapply learns_trans; [apply (learns_less A (r_note (ECall o) (r_put o v (r_meet o A))) {[o]}); cbn; [done|done|clear; set_solver]| |].
    + eapply learns_trans; [exact IH|apply (learns_less _ _ ∅); cbn; [done|done|clear; set_solver]|]; set_solver.
    + set_solver.
  - intros B o A d v e A1 Hd Hv Hr IH. eapply learns_trans; [apply (learns_less A (r_note (ECall o) (r_put o v (r_meet o A))) {[o]}); cbn; [done|done|clear; set_solver]| |].
    + eapply learns_trans; [exact IH|apply (learns_less _ _ ∅); cbn; [done|done|clear; set_solver]|]; set_solver.
    + set_solver.
  - intros B o A d v A1 Hd Hv Hr IH. eapply learns_trans; [apply (learns_less A (r_note (ECall o) (r_put o v (r_meet o A))) {[o]}); cbn; [done|done|clear; set_solver]|exact IH|]. set_solver.
  - intros. apply learns_refl.
  - intros. apply learns_refl.
  - intros B u h w k A r A1 x A2 Hg [Hw IH1] Hr IH2. apply (learns_sub _ _ {[w]}); [|cbn in Hw; set_solver].
    eapply learns_trans; [apply (learns_less A (r_note (EResolve u w) (r_use u w (r_meet w A))) {[w]}); cbn; [done|done|clear; set_solver]| |].
    + eapply learns_trans; [exact IH1|exact IH2|]; set_solver.
    + set_solver.
  - intros B u h w k A A1 Hg [Hw IH1]. apply (learns_sub _ _ {[w]}); [|cbn in Hw; set_solver].
    eapply learns_trans; [apply (learns_less A (r_note (EResolve u w) (r_use u w (r_meet w A))) {[w]}); cbn; [done|done|clear; set_solver]|exact IH1|]. set_solver.
  - intros B u k A v x A1 Hv Hr IH. exact IH.
  - intros B u v p A x A1 Hr IH. exact IH.
  - intros B u k A x A1 Hr IH. exact IH.
  - intros B u v k A x A1 Hr IH. exact IH.
  - intros B u d k A x A1 Hf Hr IH. eapply learns_trans; [by apply (learns_alloc d (ask (r_tick A)) A ∅)|exact IH|]. set_solver.
  - intros B u w p A x A1 Hl Hn Hr IH. eapply learns_trans; [by apply (learns_drop w A ∅)|exact IH|]. set_solver.
Qed.
Lemma learns_prepare o A : learns A (r_prepare o A) ∅.
Proof. unfold r_prepare. destruct (decide _); [less|apply learns_refl]. Qed.
Lemma call_learns x A y A1 : rcall ask kd x A y A1 → learns A A1 ∅.
Proof.
  destruct build_learns as (MG & MB & _).
  assert (∀ o A A1 x, o ∈ r_live A → rbuild ask kd [] o (r_tock (r_prepare o A)) x A1 → learns A A1 ∅) as Hb.
  { intros o A2 A3 z Ho Hr. eapply learns_trans; [apply learns_prepare| |clear; set_solver].
    apply MB in Hr. eapply learns_sub; [exact Hr|]. cbn. unfold r_prepare. clear -Ho. destruct (decide _); cbn; set_solver. }
  destruct 1 as [d A Hfr|o A Hl|h o A r A1 Hg|h o A A1 Hg|h o A Hl Hh|x o u A Hm Hkd Hl Hu Hd|o f A B Hkd Hl Hno ->
    |o f A B b Hkd Hl Hno -> Hbb|o f A B b A1 Hkd Hl Hno -> Hbb Hr|o f A B e A1 Hkd Hl Hno -> Hbb Hr|o f A B A1 Hkd Hl Hno -> Hbb Hr
    |o A Hl|o A v Hl Hv|o A d v Hl Hv Hd Hi|o A d Hl Hv Hd Hi|o f A F B d v Hl HF -> Hd Hv|o f A F B d Hl HF -> Hd Hv Hi
    |o A F Hl HF|o A F Hl HF|A|A|A F Hs HF|A Hs|o A Hl|A].
  1: apply learns_alloc.
  1: apply learns_drop.
  1,2: by eapply MG.
  all: try apply learns_refl.
  - apply (learns_trans _ (r_prepare o A) _ _ ∅); [apply learns_prepare|less|clear; set_solver].
  - apply (learns_trans _ (r_prepare o A) _ _ ∅); [apply learns_prepare|less|clear; set_solver].
  - exact (Hb o A A1 _ Hl Hr).
  - exact (Hb o A A1 _ Hl Hr).
  - exact (Hb o A A1 _ Hl Hr).
  - apply (learns_sub _ _ {[o]}); [less|clear -Hl; set_solver].
  - apply (learns_sub _ _ {[o]}); [less|clear -Hl; set_solver].
  - apply (learns_sub _ _ {[o]}); [less|clear -Hl; set_solver].
  - apply (learns_sub _ _ {[o]}); [less|clear -Hl; set_solver].
  - less.
  - less.
  - less.
  - less.
  - less.
  - less.
Qed.
End Learn.

(** ** The view of a cache when the world has changed *)
Lemma at_same s s2 o d a : Inv s → ch s2 = ch s → objs s ⊆ objs s2 → known (ch s) !! a = Some o → at_addr s2 o d a ↔ at_addr s o d a.
Proof.
  intros I Hc Hs Hk. destruct (ci_known_obj _ _ (i_c _ I) a o Hk) as [d' Hd].
  pose proof (lookup_weaken _ _ _ _ Hd Hs) as Hd2. unfold at_addr. rewrite Hd, Hd2. done.
Qed.
Lemma frame s s2 : Inv s → ch s2 = ch s → objs s ⊆ objs s2 →
  (∀ o, cached s2 o = cached s o) ∧ (∀ o, state_of s2 o = state_of s o) ∧ (∀ o, knows s2 o ↔ knows s o) ∧ (∀ u w, depends s2 u w ↔ depends s u w).
Proof.
  intros I Hc Hs.
  assert (∀ o, (objs s2 !! o = objs s !! o) ∨ (objs s !! o = None ∧ ∀ d a, objs s2 !! o = Some (d, a) → known (ch s) !! a ≠ Some o)) as Ho.
  { intros o. destruct (objs s !! o) as [x|] eqn:E; [left; by apply (lookup_weaken _ _ _ _ E Hs)|]. right. split; [done|].
    intros d a _ Hk. destruct (ci_known_obj _ _ (i_c _ I) a o Hk) as [d' Hd]. congruence. }
  split_and!.
  - intros o. unfold cached. rewrite Hc. destruct (Ho o) as [->|[-> Hn]]; [done|]. destruct (objs s2 !! o) as [[d a]|]; [|done].
    rewrite decide_False; [done|]. by eapply Hn.
  - intros o. unfold state_of. rewrite Hc. destruct (Ho o) as [->|[-> Hn]]; [done|]. destruct (objs s2 !! o) as [[d a]|]; [|done].
    rewrite decide_False; [done|]. by eapply Hn.
  - intros o. unfold knows. rewrite Hc. split; intros (d & a & Ha & Hk); exists d, a; (split; [|done]); by apply (at_same s s2 o d a).
  - intros u w. unfold depends. rewrite Hc. split; intros (du & ua & dw & wa & X & H1 & H2 & H3 & H4 & H5); exists du, ua, dw, wa, X;
      (split; [by apply (at_same s s2 u du ua)|]; split; [done|]; split; [by apply (at_same s s2 w dw wa)|done]).
Qed.

Lemma Inv_elsewhere s s2 :
  Inv s → stack s2 = [] → ch s2 = ch s → objs s ⊆ objs s2 → objs_num s2 → (∀ o, o ∈ alive s2 → is_Some (objs s2 !! o)) →
  (∀ o o' d d' a, o ∈ alive s2 → o' ∈ alive s2 → objs s2 !! o = Some (d, a) → objs s2 !! o' = Some (d', a) → o = o') →
  (∀ o d a o', o ∈ alive s2 → objs s2 !! o = Some (d, a) → known (ch s) !! a = Some o' → o = o') → Inv s2.
Proof.
  intros I Hst Hc Hs Hn Ha H1 H2. pose proof (i_c _ I) as C.
  assert (∀ a o d, known (ch s) !! a = Some o → objs s2 !! o = Some (d, a) → objs s !! o = Some (d, a)) as Hob.
  { intros a o d Hk Hd. destruct (ci_known_obj _ _ C a o Hk) as [d' Hd']. rewrite (lookup_weaken _ _ _ _ Hd' Hs) in Hd. congruence. }
  split; [|done|done| |].
  - rewrite Hc. destruct C as [C1 C2 C3 C4 C5 C6 C7 C8]. split; try done.
    + intros a o Hk. destruct (C6 a o Hk) as [d Hd]. exists d. by eapply lookup_weaken.
    + intros a e o d He Hk Hd. eapply C7; [done..|]. by apply Hob.
    + intros a e o d He Hk Hd. eapply C8; [done..|]. by apply Hob.
  - intros o o' d d' a [Ho|[b Ho]] [Ho'|[b' Ho']] Hd Hd'; rewrite ?Hc in *.
    + by eapply H1.
    + destruct (ci_known_obj _ _ C b' o' Ho') as [e He]. rewrite (lookup_weaken _ _ _ _ He Hs) in Hd'. injection Hd' as -> ->. by eapply H2.
    + destruct (ci_known_obj _ _ C b o Ho) as [e He]. rewrite (lookup_weaken _ _ _ _ He Hs) in Hd. injection Hd as -> ->. symmetry. by eapply H2.
    + destruct (ci_known_obj _ _ C b' o' Ho') as [e' He']. rewrite (lookup_weaken _ _ _ _ He' Hs) in Hd'. injection Hd' as -> ->.
      destruct (ci_known_obj _ _ C b o Ho) as [e He]. rewrite (lookup_weaken _ _ _ _ He Hs) in Hd. injection Hd as -> ->. congruence.
  - rewrite Hst. intros o Ho. by apply elem_of_nil in Ho.
Qed.

(** ** All caches *)
Section All.
Context (E : env) (K : nat → kind).

Record fine (l : list mevent) (m : mst) (i : nat) : Prop := {
  fi_inv : Inv (view i m);
  fi_ref : ∃ A, rlife (e_ask E) (K i) (own i l) A ∧ shows (view i m) A;
}.

Lemma view_put i s m : view i (put_lane i s m) = set_stack [] s.
Proof. unfold view, put_lane, lane_of. cbn. rewrite lookup_insert. cbn. by destruct s. Qed.
Lemma lane_put i j s m : j ≠ i → lane_of (put_lane i s m) j = lane_of m j.
Proof. intros H. unfold lane_of, put_lane. cbn. by rewrite lookup_insert_ne. Qed.
Lemma view_other i j s m : j ≠ i → view j (put_lane i s m) =
  St (ch (view j m)) (objs s) (alive s) (nobj s) (nbin s) (tick s) [] (reent (view j m)) (trace (view j m)).
Proof. intros H. unfold view. cbn. by rewrite lane_put. Qed.

Lemma step_fine i n x y m s' :
  Inv (view i m) → step (lane_env E K i) n x (view i m) = ends_as y s' → (∀ k, y = Panicked k → resumable k = true) →
  Inv (set_stack [] s').
Proof.
  intros I Hs Hy. destruct y as [r|k].
  - assert (runs (lane_env E K i) any_op (view i m) [(x, Returned r)] s') as R by (eapply runs_done; [constructor|done|exact Hs]).
    destruct (runs_Inv _ _ _ _ _ R I eq_refl) as [I' Hst']. by apply Inv_unwound in I'.
  - assert (runs (lane_env E K i) any_op (view i m) [(x, Panicked k)] (unwound s')) as R by (eapply runs_panic; [constructor|done|exact Hs|by apply Hy]).
    by destruct (runs_Inv _ _ _ _ _ R I eq_refl) as [I' Hst'].
Qed.

(** A call on cache [i]: its effect on itself, and on cache [j]. *)
Lemma call_fine l m i n x y s' :
  (∀ j, fine l m j) → step (lane_env E K i) n x (view i m) = ends_as y s' → (∀ k, y = Panicked k → resumable k = true) →
  not_pinned i m s' → ∀ j, fine (MCall i x y :: l) (put_lane i (set_stack [] s') m) j.
Proof.
  intros HF Hs Hy Hp j. destruct (HF i) as [I (A & HA & H)].
  destruct (call_sound (lane_env E K i) x A (view i m) n y s' I eq_refl H Hs) as (A' & Hc & H').
  assert (y ≠ Panicked PkCounterpart) as Hne by (intros ->; by specialize (Hy _ eq_refl)).
  pose proof (step_fine i n x y m s' I Hs Hy) as I'. specialize (H' Hne).
  destruct (decide (i = j)) as [<-|Hij].
  { split; [by rewrite view_put|]. exists A'. split.
    - cbn. rewrite decide_True by done. by eapply rlife_call.
    - rewrite view_put. by apply (proj1 (shows_stack _ _ _)), (proj1 (shows_stack _ _ _)). }
  destruct (HF j) as [Ij (B & HB & Hj)].
  assert (num A) as N. { intros o z. rewrite (sh_who _ _ H), (sh_nobj _ _ H). apply (i_num _ I). }
  destruct (call_moves _ _ _ _ _ _ Hc N) as [_ Hwho Hno Hlv Hel].
  assert (over B A = B) as Hov.
  { unfold over. rewrite (sh_who _ _ H), (sh_live _ _ H), (sh_nobj _ _ H), (sh_nbin _ _ H), (sh_tick _ _ H).
    destruct B. pose proof (sh_who _ _ Hj). pose proof (sh_live _ _ Hj). pose proof (sh_nobj _ _ Hj). pose proof (sh_nbin _ _ Hj).
    pose proof (sh_tick _ _ Hj). cbn in *. congruence. }
  assert (objs (view j m) ⊆ objs s') as Hobs. { rewrite (sh_who _ _ H), (sh_who _ _ H') in Hwho. exact Hwho. }
  assert (inside B A) as Hin.
  { intros w Hw. apply (sh_known _ _ Hj) in Hw as (d & a & Ha & _). rewrite (sh_who _ _ H). exists (d, a). exact Ha. }
  assert (apart B A A') as Hap.
  { intros o d a w d' Ho Hd Hw Hn. rewrite (sh_who _ _ H') in Hd. rewrite (sh_nobj _ _ H) in Ho. rewrite (sh_who _ _ H) in Hn.
    pose proof (Hp j o d a (not_eq_sym Hij) Ho Hd) as Hk. apply (sh_known _ _ Hj) in Hw as (e & b & Hb & Hkb).
    unfold at_addr in Hb. cbn in Hn, Hb, Hkb. rewrite Hn in Hb. injection Hb as -> ->. congruence. }
  pose proof (Hel B Hin Hap) as Hb. rewrite Hov in Hb.
  pose proof (view_other i j (set_stack [] s') m (not_eq_sym Hij)) as Hv.
  set (s2 := St _ _ _ _ _ _ _ _ _) in Hv.
  destruct (frame (view j m) s2 Ij eq_refl Hobs) as (F1 & F2 & F3 & F4).
  split.
  - rewrite Hv. apply (Inv_elsewhere (view j m)); [done|done|done|done| | | |].
    + exact (i_num _ I').
    + exact (i_alive _ I').
    + intros o o' d d' a Ho Ho' Hd Hd'. eapply (i_addr _ I'); [by left|by left|done..].
    + intros o d a o' Ho Hd Hk. destruct (decide (nobj (m_rest m) ≤ o)%N) as [Hge|Hlt].
      { pose proof (Hp j o d a (not_eq_sym Hij) Hge Hd) as Hk'. cbn in Hk. congruence. }
      assert (o ∈ alive (view j m)) as Ho1.
      { change (o ∈ alive s') in Ho. rewrite <- (sh_live _ _ H') in Ho. apply Hlv in Ho as [Ho|Ho].
        - by rewrite (sh_live _ _ H) in Ho.
        - rewrite (sh_nobj _ _ H) in Ho. done. }
      destruct (i_alive _ Ij o Ho1) as [[d1 a1] Hd1]. pose proof (lookup_weaken _ _ _ _ Hd1 Hobs) as Hd2.
      change (objs s' !! o = Some (d, a)) in Hd. rewrite Hd in Hd2. injection Hd2 as <- <-.
      destruct (ci_known_obj _ _ (i_c _ Ij) a o' Hk) as [d' Hd']. eapply (i_addr _ Ij); [by left|right; by exists a|done..].
  - exists (over B A'). split.
    + cbn [own]. rewrite decide_False by done. by eapply rlife_elsewhere.
    + rewrite Hv. split; cbn [over r_art r_state r_known r_deps r_stray r_who r_live r_nobj r_nbin r_tick r_log].
      * intros o. rewrite F1. apply (sh_art _ _ Hj).
      * intros o. rewrite F2. apply (sh_state _ _ Hj).
      * intros o. rewrite F3. apply (sh_known _ _ Hj).
      * intros u w. rewrite F4. apply (sh_deps _ _ Hj).
      * intros a. apply (sh_stray _ _ Hj).
      * apply (sh_who _ _ H').
      * apply (sh_live _ _ H').
      * apply (sh_nobj _ _ H').
      * apply (sh_nbin _ _ H').
      * apply (sh_tick _ _ H').
      * apply (sh_log _ _ Hj).
Qed.

Definition ev_lane (e : mevent) : nat := match e with MCall i _ _ | MDrop i => i end.
Lemma unused_lane l m j : mruns E K l m → j ∉ ev_lane <$> l → m_lanes m !! j = None ∧ own j l = [].
Proof.
  induction 1 as [|l m i n x r s' Hr IH Hs Hp|l m i n x k s' Hr IH Hs Hk Hp|l m i Hr IH]; cbn; rewrite ?elem_of_cons; intros Hj.
  - by rewrite lookup_empty.
  - destruct IH as [IH1 IH2]; [tauto|]. rewrite decide_False by naive_solver. rewrite lookup_insert_ne by naive_solver. done.
  - destruct IH as [IH1 IH2]; [tauto|]. rewrite decide_False by naive_solver. rewrite lookup_insert_ne by naive_solver. done.
  - destruct IH as [IH1 IH2]; [tauto|]. rewrite decide_False by naive_solver. rewrite lookup_delete_ne by naive_solver. done.
Qed.
Lemma rlife_nil ask kd kd' l A : rlife ask kd l A → l = [] → rlife ask kd' [] A.
Proof. induction 1 as [|l A A' H IH He|]; intros Hl; [constructor|eapply rlife_else; [by apply IH|done]|done]. Qed.

Lemma all_fine l m : mruns E K l m → ∀ i, fine l m i.
Proof.
  induction 1 as [|l m i n x r s' Hr IH Hs Hp|l m i n x k s' Hr IH Hs Hk Hp|l m i Hr IH].
  - intros i. assert (view i m_init = init_st) as Hv by (unfold view, lane_of; cbn; by rewrite lookup_empty).
    split; rewrite Hv; [exact Inv_init|]. exists new_ref. split; [constructor|exact shows_init].
  - intros j. destruct (step_Inv _ _ _ _ _ _ (fi_inv _ _ _ (IH i)) eq_refl Hs) as [_ Hst].
    assert (s' = set_stack [] s') as -> by (destruct s'; cbn in *; by subst).
    eapply (call_fine l m i n x (Returned r) s'); [done|exact Hs|done|done].
  - intros j. eapply (call_fine l m i n x (Panicked k) s'); [done|exact Hs|by intros ? [= <-]|done].
  - intros j. destruct (decide (i = j)) as [<-|Hij].
    + pose (z := fresh (list_to_set (ev_lane <$> l) : gset nat)).
      assert (z ∉ ev_lane <$> l) as Hz by (rewrite <- (elem_of_list_to_set (C:=gset nat)); apply is_fresh).
      destruct (unused_lane l m z Hr Hz) as [Hz1 Hz2]. destruct (IH z) as [I (A & HA & H)].
      assert (view i (drop_lane i m) = view z m) as Hv.
      { unfold view, lane_of. cbn. by rewrite lookup_delete, Hz1. }
      split; rewrite Hv; [done|]. exists A. cbn [own]. rewrite decide_True by done. split; [|done].
      eapply rlife_nil; [exact HA|done].
    + assert (view j (drop_lane i m) = view j m) as Hv.
      { unfold view, lane_of. cbn. by rewrite lookup_delete_ne. }
      destruct (IH j) as [I (A & HA & H)]. split; rewrite Hv; [done|]. exists A. cbn [own]. by rewrite decide_False.
Qed.

(** Weak references of different caches to the same address are to the same builder. *)
Definition agree (m : mst) : Prop :=
  ∀ i j a o o', known (l_ch (lane_of m i)) !! a = Some o → known (l_ch (lane_of m j)) !! a = Some o' → o = o'.
Lemma call_agree l m i n x y s' :
  (∀ j, fine l m j) → agree m → step (lane_env E K i) n x (view i m) = ends_as y s' → (∀ k, y = Panicked k → resumable k = true) →
  not_pinned i m s' → agree (put_lane i (set_stack [] s') m).
Proof.
  intros HF HA Hs Hy Hp. destruct (HF i) as [I (A & _ & H)].
  destruct (call_sound (lane_env E K i) x A (view i m) n y s' I eq_refl H Hs) as (A' & Hc & H').
  assert (y ≠ Panicked PkCounterpart) as Hne by (intros ->; by specialize (Hy _ eq_refl)). specialize (H' Hne).
  pose proof (step_fine i n x y m s' I Hs Hy) as I'.
  assert (num A) as N. { intros o z. rewrite (sh_who _ _ H), (sh_nobj _ _ H). apply (i_num _ I). }
  destruct (call_moves _ _ _ _ _ _ Hc N) as [_ Hwho Hno Hlv Hel].
  destruct (call_learns _ _ _ _ _ _ Hc) as (_ & _ & Hln).
  rewrite (sh_who _ _ H), (sh_who _ _ H') in Hwho.
  assert (∀ j a o o', j ≠ i → known (ch s') !! a = Some o → known (l_ch (lane_of m j)) !! a = Some o' → o = o') as Hij.
  { intros j a o o' Hj Hk Hk'. destruct (ci_known_obj _ _ (i_c _ I') a o Hk) as [d Hd]. cbn in Hd.
    assert (o ∈ r_known A') as Ho by (apply (sh_known _ _ H'); exists d, a; done).
    destruct (Hln o Ho) as [Ho1|[Ho1|[Ho1|Ho1]]].
    - apply (sh_known _ _ H) in Ho1 as (d0 & a0 & Ha0 & Hk0). unfold at_addr in Ha0.
      rewrite (lookup_weaken _ _ _ _ Ha0 Hwho) in Hd. injection Hd as -> ->. exact (HA i j a o o' Hk0 Hk').
    - by apply elem_of_empty in Ho1.
    - rewrite (sh_live _ _ H) in Ho1. destruct (HF j) as [Ij _]. change (alive (view i m)) with (alive (view j m)) in Ho1.
      destruct (i_alive _ Ij o Ho1) as [[d1 a1] Hd1]. change (objs (view i m)) with (objs (view j m)) in Hwho.
      rewrite (lookup_weaken _ _ _ _ Hd1 Hwho) in Hd. injection Hd as -> ->.
      destruct (ci_known_obj _ _ (i_c _ Ij) a o' Hk') as [d' Hd'].
      eapply (i_addr _ Ij); [by left|right; by exists a|done..].
    - rewrite (sh_nobj _ _ H) in Ho1. by rewrite (Hp j o d a Hj Ho1 Hd) in Hk'. }
  assert (∀ z, known (l_ch (lane_of (put_lane i (set_stack [] s') m) z)) = if decide (z = i) then known (ch s') else known (l_ch (lane_of m z))) as Hz.
  { intros z. destruct (decide (z = i)) as [->|Hz]; [|by rewrite lane_put]. unfold lane_of, put_lane. cbn. by rewrite lookup_insert. }
  intros j k a o o'. rewrite !Hz. destruct (decide (j = i)) as [->|Hj], (decide (k = i)) as [->|Hk]; [congruence| | |by apply HA].
  - by apply Hij.
  - intros H1 H2. symmetry. by eapply Hij.
Qed.
Lemma all_agree l m : mruns E K l m → agree m.
Proof.
  induction 1 as [|l m i n x r s' Hr IH Hs Hp|l m i n x k s' Hr IH Hs Hk Hp|l m i Hr IH].
  - intros i j a o o'. unfold lane_of. cbn. rewrite lookup_empty. cbn. by rewrite lookup_empty.
  - destruct (step_Inv _ _ _ _ _ _ (fi_inv _ _ _ (all_fine l m Hr i)) eq_refl Hs) as [_ Hst].
    assert (s' = set_stack [] s') as -> by (destruct s'; cbn in *; by subst).
    eapply (call_agree l m i n x (Returned r) s'); [by apply all_fine|done|exact Hs|done|done].
  - eapply (call_agree l m i n x (Panicked k) s'); [by apply all_fine|done|exact Hs|by intros ? [= <-]|done].
  - intros j k a o o'. unfold lane_of. cbn.
    destruct (decide (i = j)) as [->|Hj]; [rewrite lookup_delete; cbn; by rewrite lookup_empty|].
    destruct (decide (i = k)) as [->|Hk]; [rewrite lookup_delete; cbn; by rewrite lookup_empty|].
    rewrite !lookup_delete_ne by done. apply IH.
Qed.
End All.
