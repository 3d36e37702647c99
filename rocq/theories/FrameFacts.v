(** Bystanders (C69): proofs, on the reference cache of C44. *)
From Verif Require Export FrameSpec RefCalls.
From stdpp Require Import relations.

Section Frame.
Context (ask : nat → N) (kd : kind) (X : obj → Prop).

Definition r_calls (A : ref) (o : obj) : nat := count (is_call o) (r_log A).
Record rby (A : ref) : Prop := {
  rb_exist : ∀ w, X w → (w < r_nobj A)%N ∧ is_Some (r_who A !! w);
  rb_avoid : ∀ u d, r_def A u = Some d → ¬ X u → avoids X (bd_body d);
  rb_deps : ∀ u w, (u, w) ∈ r_deps A → X u ↔ X w;
}.
Record rkeeps (A A' : ref) : Prop := {
  rk_art : ∀ w, X w → r_art A' !! w = r_art A !! w;
  rk_state : ∀ w, X w → r_state A' !! w = r_state A !! w;
  rk_known : ∀ w, X w → w ∈ r_known A' ↔ w ∈ r_known A;
  rk_calls : ∀ w, X w → r_calls A' w = r_calls A w;
  rk_who : ∀ w, X w → r_who A' !! w = r_who A !! w;
  rk_deps : ∀ u w, X u ∨ X w → (u, w) ∈ r_deps A' ↔ (u, w) ∈ r_deps A;
}.
Definition fine (A A' : ref) : Prop := rby A → rby A' ∧ rkeeps A A'.
Lemma fine_refl A : fine A A.
Proof. intros H. split; [done|]. by split. Qed.
Lemma fine_trans A B C : fine A B → fine B C → fine A C.
Proof.
  intros H1 H2 HA. destruct (H1 HA) as [HB K1]. destruct (H2 HB) as [HC K2]. split; [done|]. split.
  - intros w Hw. rewrite (rk_art _ _ K2 w Hw). by apply K1.
  - intros w Hw. rewrite (rk_state _ _ K2 w Hw). by apply K1.
  - intros w Hw. rewrite (rk_known _ _ K2 w Hw). by apply K1.
  - intros w Hw. rewrite (rk_calls _ _ K2 w Hw). by apply K1.
  - intros w Hw. rewrite (rk_who _ _ K2 w Hw). by apply K1.
  - intros u w Hw. rewrite (rk_deps _ _ K2 u w Hw). by apply K1.
Qed.

Ltac by_hand := intros HA; split; [split; [apply (rb_exist _ HA)|apply (rb_avoid _ HA)|apply (rb_deps _ HA)]|split; try done].
Lemma fine_meet o A : ¬ X o → fine A (r_meet o A).
Proof. intros Ho. by_hand. cbn. intros w Hw. rewrite elem_of_union, elem_of_singleton. split; [|by right]. intros [->|?]; done. Qed.
Lemma fine_use u w A : ¬ X u → ¬ X w → fine A (r_use u w A).
Proof.
  intros Hu Hw HA. split; [split; [apply (rb_exist _ HA)|apply (rb_avoid _ HA)|]|split; try done]; cbn; intros x y.
  - rewrite elem_of_union, elem_of_singleton. intros [[= -> ->]|H]; [done|]. by apply (rb_deps _ HA).
  - intros Hxy. rewrite elem_of_union, elem_of_singleton. split; [|by right]. intros [[= -> ->]|?]; [|done]. by destruct Hxy.
Qed.
Lemma fine_put o v A : ¬ X o → fine A (r_put o v A).
Proof. intros Ho. by_hand. cbn. intros w Hw. apply lookup_insert_ne. intros Heq. apply Ho. by rewrite Heq. Qed.
Lemma fine_store o b A : ¬ X o → fine A (r_store o b A).
Proof. intros Ho. by_hand. cbn. intros w Hw. apply lookup_insert_ne. intros Heq. apply Ho. by rewrite Heq. Qed.
Lemma fine_write o f A : ¬ X o → fine A (r_write o f A).
Proof. intros Ho. by_hand. cbn. intros w Hw. apply lookup_alter_ne. intros Heq. apply Ho. by rewrite Heq. Qed.
Lemma fine_note e A : (∀ o, e = ECall o → ¬ X o) → fine A (r_note e A).
Proof.
  intros He. by_hand. intros w Hw. unfold r_calls, count. cbn [r_note r_log]. rewrite filter_cons. rewrite decide_False; [done|].
  destruct e as [o| | | | | |]; try done. cbn. intros Heq%N.eqb_eq. apply (He o eq_refl). by rewrite Heq.
Qed.
Lemma fine_tock A : fine A (r_tock A). Proof. by_hand. Qed.
Lemma fine_newbin A : fine A (r_newbin A). Proof. by_hand. Qed.
Lemma fine_drop o A : fine A (r_drop o A). Proof. by_hand. Qed.
Lemma fine_spoil o A : fine A (r_spoil o A). Proof. by_hand. Qed.
Lemma fine_alloc d a A : avoids X (bd_body d) → fine A (r_alloc d a A).
Proof.
  intros Hd HA. split; [split; [| |apply (rb_deps _ HA)]|split; try done].
  - cbn. intros w Hw. destruct (rb_exist _ HA w Hw) as [Hlt Hs]. split; [lia|]. rewrite lookup_insert_ne by lia. done.
  - unfold r_def. cbn. intros u d'. destruct (decide (u = r_nobj A)) as [->|Hne].
    + rewrite lookup_insert. intros [= <-]. done.
    + rewrite lookup_insert_ne by done. apply (rb_avoid _ HA).
  - cbn. intros w Hw. destruct (rb_exist _ HA w Hw) as [Hlt _]. apply lookup_insert_ne. lia.
Qed.
Lemma fine_forget F A : (∀ w, X w → w ∉ F) → fine A (r_forget F A).
Proof.
  intros HF HA. split; [split; [apply (rb_exist _ HA)|apply (rb_avoid _ HA)|]|split; try done]; cbn.
  - intros u w [_ H]%elem_of_filter. by apply (rb_deps _ HA).
  - intros w Hw. destruct (r_art A !! w) as [b|] eqn:Hb.
    + apply map_filter_lookup_Some. split; [done|]. by apply HF.
    + apply map_filter_lookup_None. by left.
  - intros u w Huw. rewrite elem_of_filter. split; [by intros [_ ?]|]. intros H. split; [|done]. cbn.
    assert (X u ∧ X w) as [??] by (pose proof (rb_deps _ HA u w H); tauto). split; by apply HF.
Qed.
Lemma fine_unknow F A : (∀ w, X w → w ∉ F) → fine A (r_unknow F A).
Proof.
  intros HF. by_hand; cbn.
  - intros w Hw. destruct (r_state A !! w) as [b|] eqn:Hb.
    + apply map_filter_lookup_Some. split; [done|]. by apply HF.
    + apply map_filter_lookup_None. by left.
  - intros w Hw. rewrite elem_of_difference. split; [by intros [??]|]. split; [done|by apply HF].
Qed.

Notation rget := (rget ask kd). Notation rbuild := (rbuild ask kd). Notation rrun := (rrun ask kd). Notation rcall := (rcall ask kd).
Lemma frame_build :
  (∀ B h o A x A', rget B h o A x A' → ¬ X o → fine A A') ∧
  (∀ B o A x A', rbuild B o A x A' → ¬ X o → fine A A') ∧
  (∀ B u p A x A', rrun B u p A x A' → ¬ X u → avoids X p → fine A A').
Proof.
  apply (ref_min ask kd (λ B h o A x A', ¬ X o → fine A A') (λ B o A x A', ¬ X o → fine A A')
    (λ B u p A x A', ¬ X u → avoids X p → fine A A')); try (intros; apply fine_refl); try (intros; by eauto).
  - intros B o A d _ _ _ Ho. by apply fine_meet.
  - intros B o A d v b A' Hd _ _ IH Ho HA. apply (fine_trans A (r_note (ECall o) (r_put o v (r_meet o A)))); [| |done].
    + eapply fine_trans; [by apply (fine_meet o)|]. eapply fine_trans; [by apply (fine_put o)|]. apply fine_note. by intros ? [= ->].
    + eapply fine_trans; [apply IH; [done|]; by eapply (rb_avoid _ HA)|]. eapply fine_trans; [by apply (fine_store o)|]. apply fine_note. done.
  - intros B o A d v e A' Hd _ _ IH Ho HA. apply (fine_trans A (r_note (ECall o) (r_put o v (r_meet o A)))); [| |done].
    + eapply fine_trans; [by apply (fine_meet o)|]. eapply fine_trans; [by apply (fine_put o)|]. apply fine_note. by intros ? [= ->].
    + eapply fine_trans; [apply IH; [done|]; by eapply (rb_avoid _ HA)|]. apply fine_note. done.
  - intros B o A d v A' Hd _ _ IH Ho HA. apply (fine_trans A (r_note (ECall o) (r_put o v (r_meet o A)))); [| |done].
    + eapply fine_trans; [by apply (fine_meet o)|]. eapply fine_trans; [by apply (fine_put o)|]. apply fine_note. by intros ? [= ->].
    + apply IH; [done|]. by eapply (rb_avoid _ HA).
  - intros B u h w k A r A1 x A2 _ IHw _ IHk Hu Hp. inversion Hp as [| |? ? ? Hw Hk| | | | | |]; subst.
    eapply fine_trans; [by apply (fine_meet w)|]. eapply fine_trans; [by apply (fine_use u w)|].
    eapply fine_trans; [by apply (fine_note (EResolve u w))|]. eapply fine_trans; [by apply IHw|].
    eapply fine_trans; [by apply (fine_note (EGot u w r))|]. apply IHk; [done|]. apply Hk.
  - intros B u h w k A A1 _ IHw Hu Hp. inversion Hp as [| |? ? ? Hw Hk| | | | | |]; subst.
    eapply fine_trans; [by apply (fine_meet w)|]. eapply fine_trans; [by apply (fine_use u w)|].
    eapply fine_trans; [by apply (fine_note (EResolve u w))|]. by apply IHw.
  - intros B u k A v x A' _ _ IH Hu Hp. inversion Hp; subst. by apply IH.
  - intros B u v p A x A' _ IH Hu Hp. inversion Hp; subst. eapply fine_trans; [by apply (fine_put u v)|]. by apply IH.
  - intros B u k A x A' _ IH Hu Hp. inversion Hp; subst. eapply fine_trans; [apply fine_tock|]. by apply IH.
  - intros B u v k A x A' _ IH Hu Hp. inversion Hp; subst. eapply fine_trans; [apply fine_newbin|]. by apply IH.
  - intros B u d k A x A' _ _ IH Hu Hp HA. inversion Hp as [| | | | | | |? ? Hd Hk|]; subst.
    apply (fine_trans A (r_alloc d (ask (r_tick A)) A)); [by apply fine_alloc| |done]. apply IH; [done|]. apply Hk.
    intros Hx. destruct (rb_exist _ HA _ Hx). lia.
  - intros B u w p A x A' _ _ _ IH Hu Hp. inversion Hp; subst. eapply fine_trans; [apply fine_drop|]. by apply IH.
Qed.

Definition raway (A : ref) (x : op) : Prop :=
  match x with
  | OAlloc d => avoids X (bd_body d)
  | OGet _ o | OGetMut o _ | OLookupMut o _ | ODynState o | ODynStateMut o _ | OInvalidate o | OPurge o => ¬ X o
  | OGc => ∀ w, X w → w ∈ r_live A
  | OClearArtifacts | OClearAll => False
  | ODrop _ | OLookup _ _ | OGetDynState _ | OIsKnown _ | ONumKnown => True
  end.

Lemma affected_out A o F : rby A → ¬ X o → r_affected A o F → ∀ w, X w → w ∉ F.
Proof.
  intros HA Ho HF w Hw Hin. apply HF in Hin. enough (∀ a b, rtc (λ x y, (y, x) ∈ r_deps A) a b → X b → X a) as H by (by apply Ho, (H o w)).
  clear -HA. intros a b H. induction H as [a|a y b Hay _ IH]; [done|]. intros Hb. apply (rb_deps _ HA y a Hay). auto.
Qed.
Lemma fine_prepare o A : ¬ X o → fine A (r_prepare o A).
Proof.
  intros Ho. unfold r_prepare. destruct (decide _); [|apply fine_refl]. apply fine_forget. intros w Hw ->%elem_of_singleton. done.
Qed.

Lemma frame_call x A y A' : rcall x A y A' → raway A x → fine A A'.
Proof.
  destruct frame_build as (Fg & Fb & _).
  intros Hc Hx. inversion Hc; subst; cbn in Hx; try apply fine_refl; try done.
  - by apply fine_alloc.
  - by apply fine_drop.
  - by eapply Fg.
  - by eapply Fg.
  - eapply fine_trans; [by apply (fine_prepare o)|]. eapply fine_trans; [by apply (fine_write o f)|].
    eapply fine_trans; [by apply (fine_spoil o)|]. apply fine_tock.
  - eapply fine_trans; [by apply (fine_prepare o)|]. eapply fine_trans; [by apply (fine_write o f)|].
    eapply fine_trans; apply fine_tock.
  - eapply fine_trans; [by apply (fine_prepare o)|]. eapply fine_trans; [apply fine_tock|].
    eapply fine_trans; [by eapply Fb|]. by apply fine_write.
  - eapply fine_trans; [by apply (fine_prepare o)|]. eapply fine_trans; [apply fine_tock|]. by eapply Fb.
  - eapply fine_trans; [by apply (fine_prepare o)|]. eapply fine_trans; [apply fine_tock|]. by eapply Fb.
  - eapply fine_trans; [by apply (fine_meet o)|]. by apply fine_put.
  - by apply fine_meet.
  - intros HA. revert HA. intros HA. eapply (fine_trans A (r_forget F A)); [| |exact HA].
    + apply fine_forget. by eapply affected_out.
    + eapply fine_trans; [apply fine_tock|]. eapply fine_trans; [by apply (fine_note (EInvalidate o))|].
      eapply fine_trans; [by apply (fine_meet o)|]. by apply fine_put.
  - intros HA. eapply (fine_trans A (r_forget F A)); [| |exact HA].
    + apply fine_forget. by eapply affected_out.
    + eapply fine_trans; [apply fine_tock|]. eapply fine_trans; [by apply (fine_note (EInvalidate o))|]. by apply fine_meet.
  - intros HA. eapply (fine_trans A (r_forget F A)); [| |exact HA].
    + apply fine_forget. by eapply affected_out.
    + eapply fine_trans; [apply (fine_spoil o)|]. eapply fine_trans; [apply fine_tock|]. by apply fine_note.
  - intros HA. eapply (fine_trans A (r_forget F A)); [| |exact HA].
    + apply fine_forget. by eapply affected_out.
    + eapply fine_trans; [apply (fine_unknow {[o]}); intros w Hw ->%elem_of_singleton; done|].
      eapply fine_trans; [apply (fine_spoil o)|]. eapply fine_trans; [apply fine_tock|]. by apply fine_note.
  - match goal with H : r_garbage A ?F |- _ => assert (∀ w, X w → w ∉ F) as HF by (intros w Hw Hin; apply H in Hin as (_ & Hl & _); apply Hl, Hx, Hw) end.
    eapply fine_trans; [by apply fine_forget|]. eapply fine_trans; [by apply fine_unknow|]. apply fine_tock.
  - apply fine_tock.
Qed.
End Frame.
