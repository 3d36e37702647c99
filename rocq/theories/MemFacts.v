(** Lemmas behind Props28.v: the memory behind a history of a cache. *)
From Verif Require Export OwnedCalls.
From Verif Require Import RcFacts Props7 Memory.
From stdpp Require Import relations.

(** ** Memory steps that only move references *)

(** From [m] to [m'] references come and go; contents can be dropped. *)
Definition thin (m m' : mem) : Prop :=
  next m' = next m ∧
  ∀ p b', heap m' !! p = Some b' → ∃ b, heap m !! p = Some b ∧ alike b b' ∧ (0 < k_strong b' → 0 < k_strong b ∧ k_owns b' = k_owns b).
Global Instance thin_refl : Reflexive thin.
Proof. intros m. split; [done|]. intros p b Hb. by exists b. Qed.
Global Instance thin_trans : Transitive thin.
Proof.
  intros m1 m2 m3 [N1 H1] [N2 H2]. split; [congruence|]. intros p b Hb. destruct (H2 p b Hb) as (b2 & Hb2 & (A1 & A2 & A3 & A4) & S2).
  destruct (H1 p b2 Hb2) as (b1 & Hb1 & (B1 & B2 & B3 & B4) & S1). exists b1. split; [done|]. split; [repeat split; congruence|].
  intros Hs. destruct (S2 Hs) as [P2 O2]. destruct (S1 P2) as [P1 O1]. split; [done|congruence].
Qed.
Lemma thin_put m p b b' :
  heap m !! p = Some b → alike b b' → (0 < k_strong b' → 0 < k_strong b ∧ k_owns b' = k_owns b) → thin m (put p b' m).
Proof.
  intros Hp Ha Hs. split; [done|]. intros q c Hq. cbn in Hq. apply lookup_insert_Some in Hq as [[<- <-]|[_ Hq]]; [by exists b|by exists c].
Qed.
Lemma thin_settle m p b b' :
  heap m !! p = Some b → alike b b' → (0 < k_strong b' → 0 < k_strong b ∧ k_owns b' = k_owns b) → thin m (Rc.settle p b' m).
Proof.
  intros Hp Ha Hs. unfold Rc.settle. destruct (k_strong b') eqn:E; [destruct (k_weak b')|]; try (eapply thin_put; [done..|by rewrite E]).
  split; [done|]. intros q c Hq. cbn in Hq. apply lookup_delete_Some in Hq as [_ Hq]. by exists c.
Qed.
Lemma drop_thin fuel : ∀ todo m m', drop_loop fuel todo m = Some m' → thin m m'.
Proof.
  induction fuel as [|fuel IH]; intros todo m m' Hd; destruct todo as [|x todo]; cbn [drop_loop] in Hd; try (injection Hd as <-; reflexivity); try done.
  destruct (heap m !! h_ptr x) as [b|] eqn:Hb; [|done]. destruct (is_weak x).
  - destruct (k_weak b) as [|n]; [done|]. apply IH in Hd. etrans; [|exact Hd]. eapply thin_settle; [exact Hb|done|done].
  - destruct (k_strong b) as [|[|n]] eqn:Hs; [done|..]; apply IH in Hd; (etrans; [|exact Hd]).
    + eapply thin_settle; [exact Hb|done|cbn; lia].
    + eapply thin_settle; [exact Hb|done|]. cbn. rewrite Hs. split; [lia|done].
Qed.
Lemma ptr_drop_thin xs m m' : ptr_drop xs m = Some m' → thin m m'.
Proof. apply drop_thin. Qed.

Lemma strong_pos m xs x b : ok m xs → x ∈ refs m xs → is_weak x = false → heap m !! h_ptr x = Some b → 0 < k_strong b.
Proof.
  intros Hok Hx Hw Hb. rewrite (bo_strong _ _ _ _ (ok_blk _ _ Hok _ _ Hb)). apply cs_pos. exists x. split; [done|]. split; [done|].
  unfold is_strong. by rewrite Hw.
Qed.
Lemma clone_thin m xs x y m' : ok m xs → x ∈ refs m xs → ptr_clone x m = Some (y, m') → thin m m'.
Proof.
  intros Hok Hx Hc. unfold ptr_clone in Hc. destruct (heap m !! h_ptr x) as [b|] eqn:Hb; [|by destruct (h_kind x)].
  destruct (h_kind x); [..|done]; injection Hc as <- <-; (eapply thin_put; [exact Hb|by destruct (is_weak x)|]);
    destruct (is_weak x) eqn:Hw; cbn; try done; intros _; (split; [|done]); by eapply strong_pos.
Qed.

(** Steps that leave the rest of the pool alone. *)
Definition moves (w w' : world) : Prop := rtc wstep w w' ∧ wok w' ∧ thin (mm w) (mm w').
Lemma moves_refl w : wok w → moves w w.
Proof. intros H. split; [apply rtc_refl|]. split; [done|reflexivity]. Qed.
Lemma moves_trans w1 w2 w3 : moves w1 w2 → moves w2 w3 → moves w1 w3.
Proof. intros (S1 & O1 & T1) (S2 & O2 & T2). split; [by etrans|]. split; [done|]. by etrans. Qed.
Lemma moves_step w w' : wok w → wstep w w' → thin (mm w) (mm w') → moves w w'.
Proof. intros H Hs Ht. split; [by apply rtc_once|]. split; [|done]. by apply (wstep_ok _ _ H Hs). Qed.

(** One more blueprint of a builder that is there. *)
Lemma grab w h t :
  wok w → h_view h = AsBin t → h_kind h ≠ PBox → (TBp h ∈ pool w ∨ ∃ p b, heap (mm w) !! p = Some b ∧ h ∈ k_owns b) →
  ∃ m', moves w (World m' (TBp h :: pool w)).
Proof.
  intros Hw Hv Hk Hin. destruct w as [m pl]. pose proof (proj1 Hw) as Hok. cbn [mm] in *.
  assert (h ∈ refs m (RcFacts.held (World m pl))) as Hr.
  { destruct Hin as [Hin|(p & b & Hb & Hh)]; [apply refs_in; eapply held_in; [exact Hin|left]|]. unfold refs. apply elem_of_app. right. apply owned_in. eauto. }
  unfold RcFacts.held in Hr. cbn in Hr. destruct (clone_total _ _ h Hok Hr Hk) as [m' Hc].
  pose proof (clone_thin _ _ _ _ _ Hok Hr Hc) as Ht. exists m'. cbn [pool] in *. destruct Hin as [Hin|(p & b & Hb & Hh)].
  - apply moves_step; [done| |done]. eapply w_clone; [exact Hin|]. cbn. by rewrite Hc.
  - assert (moves (World m pl) (World m' (TPtr h :: pl))) as H1 by (apply moves_step; [done|by eapply w_take|done]).
    eapply moves_trans; [exact H1|]. destruct h as [k v p' i]. cbn in Hv, Hk. subst v. apply moves_step; [by apply H1|by apply w_binned|reflexivity].
Qed.
(** A weak reference made of a blueprint. *)
Lemma weaken_ref w h t :
  wok w → h_view h = AsBin t → h_kind h ≠ PBox → TBp h ∈ pool w →
  ∃ m' y, moves w (World m' (TPtr y :: pool w)) ∧ h_id y = h_id h ∧ is_weak y = true.
Proof.
  intros Hw Hv Hk Hin. destruct w as [m pl]. cbn [pool] in *. pose proof (proj1 Hw) as Hok. unfold RcFacts.held in Hok. cbn in Hok.
  assert (h ∈ refs m (pl ≫= handles)) as Hr by (apply refs_in, elem_of_list_bind; exists (TBp h); split; [left|done]).
  destruct (clone_total _ _ h Hok Hr Hk) as [m1 Hc]. pose proof (clone_thin _ _ _ _ _ Hok Hr Hc) as T1.
  assert (moves (World m pl) (World m1 (TPtr (from_bin h) :: pl))) as M1.
  { apply moves_step; [done| |done]. eapply w_canned; [exact Hin|]. cbn. by rewrite Hc. }
  pose proof (proj1 (proj2 M1)) as W1. pose proof (proj1 W1) as Ok1. unfold RcFacts.held in Ok1. cbn in Ok1.
  destruct (ok_hnd _ _ Ok1 (from_bin h) (refs_head _ _ _)) as (b & Hb & Hid & Hty & Hkb). cbn in Hb.
  set (y := Hnd (h_kind h) (AsWeak (h_ty h)) (h_ptr h) (h_id h)).
  set (m2 := put (h_ptr h) (Blk (k_id b) (k_kind b) (k_ty b) (k_val b) (k_owns b) (k_strong b) (S (k_weak b))) m1).
  assert (can_downgrade (from_bin h) m1 = Some (y, m2)) as Hd.
  { unfold can_downgrade, from_bin. cbn [h_kind h_view h_ptr h_id]. rewrite Hb. by destruct (h_kind h). }
  assert (moves (World m1 (TPtr (from_bin h) :: pl)) (World m2 (TPtr y :: TPtr (from_bin h) :: pl))) as M2.
  { apply moves_step; [done|eapply w_downgrade; [left|exact Hd]|]. cbn. eapply thin_put; [exact Hb|done|done]. }
  pose proof (proj1 (proj2 M2)) as W2.
  assert (moves (World m2 (TPtr y :: TPtr (from_bin h) :: pl)) (World m2 (TPtr (from_bin h) :: TPtr y :: pl))) as M3.
  { apply moves_step; [done|apply w_swap; constructor|reflexivity]. }
  pose proof (proj1 (proj2 M3)) as W3. pose proof (proj1 W3) as Ok3. unfold RcFacts.held in Ok3. cbn in Ok3.
  destruct (ptr_drop_ok [from_bin h] m2 (y :: (pl ≫= handles)) Ok3) as (m3 & Hdr & _).
  exists m3, y. split; [|done]. eapply moves_trans; [exact M1|]. eapply moves_trans; [exact M2|]. eapply moves_trans; [exact M3|].
  apply moves_step; [done|by apply w_drop|]. cbn. by eapply ptr_drop_thin.
Qed.
(** Everything in the pool that is not wanted is dropped. *)
Lemma discard (P : thing → Prop) `{!∀ x, Decision (P x)} w :
  wok w → ∃ m', moves w (World m' (filter P (pool w))).
Proof.
  destruct w as [m pl]. cbn [pool]. intros Hw.
  assert (∀ l1 l2 m, wok (World m (l1 ++ l2)) → ∃ m', moves (World m (l1 ++ l2)) (World m' (filter P l1 ++ l2))) as Hall.
  { clear m pl Hw. induction l1 as [|x l1 IH]; intros l2 m Hw; [exists m; by apply moves_refl|].
    destruct (decide (P x)) as [HP|HP].
    - rewrite filter_cons_True by done.
      assert (moves (World m ((x :: l1) ++ l2)) (World m (l1 ++ x :: l2))) as M1.
      { apply moves_step; [done|apply w_swap; cbn; apply Permutation_middle|reflexivity]. }
      destruct (IH (x :: l2) m (proj1 (proj2 M1))) as [m' M2]. exists m'. eapply moves_trans; [exact M1|]. eapply moves_trans; [exact M2|].
      apply moves_step; [apply M2|apply w_swap; cbn; symmetry; apply Permutation_middle|reflexivity].
    - rewrite filter_cons_False by done. pose proof (proj1 Hw) as Hok. unfold RcFacts.held in Hok. cbn in Hok.
      destruct (ptr_drop_ok (handles x) m _ Hok) as (m1 & Hd & _).
      assert (moves (World m ((x :: l1) ++ l2)) (World m1 (l1 ++ l2))) as M1.
      { apply moves_step; [done|by apply w_drop|]. cbn. by eapply ptr_drop_thin. }
      destruct (IH l2 m1 (proj1 (proj2 M1))) as [m' M2]. exists m'. by eapply moves_trans. }
  specialize (Hall pl [] m). rewrite !app_nil_r in Hall. auto.
Qed.

(** ** The memory behind a state of the reference cache *)
Section MemFacts.
Context (E : env) (fields : bdef → gset obj) (keep : prog → gset obj → gset obj) (pk : ptrkind) (Hpk : pk ≠ PBox).
Notation r_part := (r_part fields).
Notation firm := (firm fields).

Definition is_bin (h : hnd) : Prop := ∃ t, h_view h = AsBin t.
Record blks (A : ref) (m : mem) : Prop := {
  bl_next : next m = r_nobj A;
  bl_blk : ∀ p b, heap m !! p = Some b → ∃ d, r_who A !! k_id b = Some (d, p) ∧ k_kind b = pk ∧ (∀ h, h ∈ k_owns b → is_bin h) ∧
    (0 < k_strong b → ∀ o, (∃ h, h ∈ k_owns b ∧ h_id h = o) ↔ o ∈ fields d);
}.
Definition only (w : world) : Prop := ∀ x, x ∈ pool w → (∃ h, x = TBp h) ∨ (∃ h, x = TPtr h ∧ is_weak h = true).
Definition bp_of (w : world) (o : obj) : Prop := ∃ h, TBp h ∈ pool w ∧ h_id h = o.
Definition weak_of (w : world) (o : obj) : Prop := ∃ h, TPtr h ∈ pool w ∧ h_id h = o.
Record mir (W : gset obj) (A : ref) (w : world) : Prop := {
  mr_blks : blks A (mm w);
  mr_only : only w;
  mr_held : ∀ o, bp_of w o ↔ o ∈ W ∨ r_stored A o;
  mr_weak : ∀ o, weak_of w o ↔ o ∈ r_known A;
}.
(** More may be held. *)
Record loose (W : gset obj) (A : ref) (w : world) : Prop := {
  lo_blks : blks A (mm w);
  lo_only : only w;
  lo_held : ∀ o, o ∈ W ∨ r_stored A o → bp_of w o;
}.
Definition reach (W : gset obj) (A : ref) (o : obj) : Prop := ∃ x, (x ∈ W ∨ r_stored A x) ∧ rtc (r_part A) x o.

Lemma blks_thin A m m' xs : blks A m → ok m' xs → thin m m' → blks A m'.
Proof.
  intros [N1 B1] Hok [N2 T]. split; [congruence|]. intros p b Hb. destruct (T p b Hb) as (b0 & Hb0 & (A1 & A2 & A3 & A4) & S).
  destruct (B1 p b0 Hb0) as (d & Hd & Hk & Ho & Hf). exists d. rewrite A1, A2. split; [done|]. split; [done|].
  destruct (k_strong b) eqn:Es.
  - rewrite (bo_dead _ _ _ _ (ok_blk _ _ Hok _ _ Hb) Es). split; [intros h Hh; by apply elem_of_nil in Hh|lia].
  - destruct S as [S1 S2]; [lia|]. rewrite S2. split; [done|]. intros _. by apply Hf.
Qed.
Lemma mir_loose W A w : mir W A w → loose W A w.
Proof. intros [B O H K]. split; [done..|]. intros o. by apply H. Qed.

Lemma only_strong w h : only w → TPtr h ∈ pool w → is_weak h = true.
Proof. intros Ho Hh. destruct (Ho _ Hh) as [[h' ?]|(h' & [= <-] & ?)]; done. Qed.

(** What is reachable is in the memory. *)
Lemma in_memory W A w o :
  wok w → loose W A w → reach W A o →
  ∃ h, h_id h = o ∧ is_bin h ∧ h_kind h = pk ∧ (TBp h ∈ pool w ∨ ∃ p b, heap (mm w) !! p = Some b ∧ h ∈ k_owns b) ∧
    ∃ b, heap (mm w) !! h_ptr h = Some b ∧ k_id b = o ∧ 0 < k_strong b.
Proof.
  intros [Hok Ht] [[Hn Hb] Hon Hh] (x & Hx & Hp).
  assert (∀ h, is_bin h → (TBp h ∈ pool w ∨ ∃ p b, heap (mm w) !! p = Some b ∧ h ∈ k_owns b) →
    ∃ h', h_id h' = h_id h ∧ is_bin h' ∧ h_kind h' = pk ∧ (TBp h' ∈ pool w ∨ ∃ p b, heap (mm w) !! p = Some b ∧ h' ∈ k_owns b) ∧
    ∃ b, heap (mm w) !! h_ptr h' = Some b ∧ k_id b = h_id h ∧ 0 < k_strong b) as Hone.
  { intros h [t Hv] Hin. assert (h ∈ refs (mm w) (RcFacts.held w)) as Hr.
    { destruct Hin as [Hin|(p & b & Hpb & Hin)]; [apply refs_in; eapply held_in; [exact Hin|left]|]. unfold refs. apply elem_of_app. right. apply owned_in. eauto. }
    destruct (ok_hnd _ _ Hok h Hr) as (b & Hpb & Hi & _ & Hk). exists h. split; [done|]. split; [by exists t|].
    destruct (Hb _ _ Hpb) as (d & _ & Hkk & _). split; [congruence|]. split; [done|]. exists b. split_and!; [done..|].
    eapply strong_pos; [exact Hok|exact Hr| |exact Hpb]. unfold is_weak. by rewrite Hv. }
  assert (∃ h, h_id h = x ∧ is_bin h ∧ h_kind h = pk ∧ (TBp h ∈ pool w ∨ ∃ p b, heap (mm w) !! p = Some b ∧ h ∈ k_owns b) ∧
    ∃ b, heap (mm w) !! h_ptr h = Some b ∧ k_id b = x ∧ 0 < k_strong b) as H0.
  { destruct (Hh x Hx) as (h & Hin & <-). apply Hone; [|by left]. rewrite Forall_forall in Ht. by destruct (Ht _ Hin). }
  clear Hx. induction Hp as [x|x y z Hxy _ IH]; [done|]. apply IH. clear IH.
  destruct H0 as (h & _ & _ & _ & _ & b & Hpb & Hid & Hs). destruct (Hb _ _ Hpb) as (d & Hd & _ & Hbin & Hf).
  destruct Hxy as (d' & a' & Hd' & Hz). rewrite Hid in Hd. rewrite Hd in Hd'. injection Hd' as <- <-.
  apply (Hf Hs y) in Hz as (h' & Hh' & <-). apply Hone; [by apply Hbin|]. right. eauto.
Qed.
(** What is in the memory is reachable. *)
Lemma from_memory W A w p b :
  wreach w → mir W A w → heap (mm w) !! p = Some b → 0 < k_strong b → reach W A (k_id b).
Proof.
  intros Hr [[Hn Hb] Hon Hh _] Hp Hs. pose proof (wreach_ok w Hr) as [Hok Ht].
  apply (C37_lives_iff_reachable w p b Hr Hp) in Hs. clear Hp. induction Hs as [h Hin Hst|q c h Hq _ IH Hin Hst].
  - unfold RcFacts.held in Hin. apply elem_of_list_bind in Hin as (x & Hhx & Hx). destruct (Hon _ Hx) as [[h' ->]|(h' & -> & Hw)]; cbn in Hhx; apply elem_of_list_singleton in Hhx as ->.
    + exists (h_id h'). split; [apply Hh; by exists h'|apply rtc_refl].
    + unfold is_strong in Hst. by rewrite Hw in Hst.
  - destruct IH as (x & Hx & Hpath). exists x. split; [done|]. eapply rtc_r; [exact Hpath|].
    destruct (Hb q c Hq) as (d & Hd & _ & _ & Hf). exists d, q. split; [done|]. apply Hf; [|eauto].
    destruct (k_strong c) eqn:Es; [|lia]. rewrite (bo_dead _ _ _ _ (ok_blk _ _ Hok _ _ Hq) Es) in Hin. by apply elem_of_nil in Hin.
Qed.
(** All allocations. *)
Lemma block_why W A w p b :
  wreach w → mir W A w → heap (mm w) !! p = Some b → reach W A (k_id b) ∨ k_id b ∈ r_known A.
Proof.
  intros Hr M Hp. destruct (k_strong b) eqn:Es; [right|left; eapply from_memory; [done..|lia]].
  pose proof (wreach_ok w Hr) as [Hok Ht]. destruct (ok_blk _ _ Hok _ _ Hp) as [_ Bw Bu _ _ _ _].
  assert (0 < cw p (refs (mm w) (RcFacts.held w))) as Hc by lia. apply cw_pos in Hc as (h & Hh & Hph & Hw).
  destruct (ok_hnd _ _ Hok h Hh) as (b' & Hb' & Hi & _). rewrite Hph, Hp in Hb'. injection Hb' as <-.
  unfold refs in Hh. apply elem_of_app in Hh as [Hh|Hh].
  - unfold RcFacts.held in Hh. apply elem_of_list_bind in Hh as (x & Hhx & Hx).
    destruct (mr_only _ _ _ M _ Hx) as [[h' ->]|(h' & -> & _)]; cbn in Hhx; apply elem_of_list_singleton in Hhx as ->.
    + rewrite Forall_forall in Ht. destruct (Ht _ Hx) as [[t Hv] _]. unfold is_weak in Hw. by rewrite Hv in Hw.
    + apply (mr_weak _ _ _ M). exists h'. by split.
  - apply owned_in in Hh as (q & c & Hq & Hin). destruct (bl_blk _ _ (mr_blks _ _ _ M) q c Hq) as (d & _ & _ & Hbin & _).
    destruct (Hbin h Hin) as [t Hv]. unfold is_weak in Hw. by rewrite Hv in Hw.
Qed.

(** Getting blueprints of what is reachable. *)
Lemma grab_list W A w l :
  wok w → loose W A w → (∀ o, o ∈ l → reach W A o) →
  ∃ m' hs, moves w (World m' ((TBp <$> hs) ++ pool w)) ∧ loose W A (World m' ((TBp <$> hs) ++ pool w)) ∧ h_id <$> hs = l ∧ ∀ h, h ∈ hs → is_bin h.
Proof using Hpk.
  induction l as [|o l IH]; intros Hw Hl Hr.
  - exists (mm w), []. destruct w as [m pl]. split_and!; [by apply moves_refl|done..|]. intros h Hh. by apply elem_of_nil in Hh.
  - destruct IH as (m1 & hs & M1 & L1 & Hid & Hbin); [done..|intros o' Ho'; apply Hr; by right|].
    destruct (in_memory W A _ o (proj1 (proj2 M1)) L1 (Hr o ltac:(left))) as (h & <- & [t Hv] & Hk & Hin & _).
    destruct (grab _ h t (proj1 (proj2 M1)) Hv ltac:(congruence) Hin) as [m2 M2]. exists m2, (h :: hs). cbn [fmap list_fmap]. cbn [app pool] in *.
    split; [by eapply moves_trans|]. split; [|split; [by rewrite <- Hid|]].
    + destruct L1 as [B1 O1 H1]. split.
      * eapply blks_thin; [exact B1|apply M2|apply M2].
      * intros x Hx. cbn in Hx. apply elem_of_cons in Hx as [->|Hx]; [left; by exists h|by apply O1].
      * intros o' Ho'. destruct (H1 o' Ho') as (h' & Hh' & <-). exists h'. split; [by right|done].
    + intros h' Hh'. apply elem_of_cons in Hh' as [->|Hh']; [by exists t|by apply Hbin].
Qed.
Lemma weak_list W A w l :
  wok w → loose W A w → (∀ o, o ∈ l → bp_of w o) →
  ∃ m' hs, moves w (World m' ((TPtr <$> hs) ++ pool w)) ∧ loose W A (World m' ((TPtr <$> hs) ++ pool w)) ∧ h_id <$> hs = l.
Proof.
  induction l as [|o l IH]; intros Hw Hl Hr.
  - exists (mm w), []. destruct w as [m pl]. split_and!; [by apply moves_refl|done..].
  - destruct IH as (m1 & hs & M1 & L1 & Hid); [done..|intros o' Ho'; apply Hr; by right|].
    destruct (Hr o ltac:(left)) as (h & Hin & <-). pose proof (proj1 (proj2 M1)) as W1.
    assert (TBp h ∈ (TPtr <$> hs) ++ pool w) as Hin' by (apply elem_of_app; by right).
    destruct (proj1 (Forall_forall _ _) (proj2 W1) _ Hin') as [[t Hv] Hk].
    destruct (weaken_ref _ h t W1 Hv Hk Hin') as (m2 & y & M2 & Hy & Hw2). exists m2, (y :: hs). cbn [fmap list_fmap]. cbn [app pool] in *.
    split; [by eapply moves_trans|]. split; [|by rewrite Hy, <- Hid].
    destruct L1 as [B1 O1 H1]. split.
    + eapply blks_thin; [exact B1|apply M2|apply M2].
    + intros x Hx. cbn in Hx. apply elem_of_cons in Hx as [->|Hx]; [right; by exists y|by apply O1].
    + intros o' Ho'. destruct (H1 o' Ho') as (h' & Hh' & <-). exists h'. split; [by right|done].
Qed.

Definition r_store_set (A : ref) : gset obj :=
  ⋃ ((λ x : obj * bin, mentions (bin_val x.2)) <$> map_to_list (r_art A)) ∪ ⋃ ((λ x : obj * val, mentions x.2) <$> map_to_list (r_state A)).
Lemma r_store_set_in A o : o ∈ r_store_set A ↔ r_stored A o.
Proof.
  unfold r_store_set, r_stored. rewrite elem_of_union, !elem_of_union_list. setoid_rewrite elem_of_list_fmap. split.
  - intros [(X & ([x b] & -> & Hx) & Ho)|(X & ([x b] & -> & Hx) & Ho)]; apply elem_of_map_to_list in Hx; [left|right]; exists x, b; done.
  - intros [(x & b & Hx & Ho)|(x & b & Hx & Ho)]; [left|right]; eexists; (split; [exists (x, b); split; [reflexivity|by apply elem_of_map_to_list]|exact Ho]).
Qed.

(** Whatever memory is behind the first, one that can be reached from it is behind
    the second. *)
Definition sim (W : gset obj) (A : ref) (W' : gset obj) (A' : ref) : Prop :=
  ∀ w, wreach w → mir W A w → ∃ w', rtc wstep w w' ∧ mir W' A' w'.
Lemma sim_trans W1 A1 W2 A2 W3 A3 : sim W1 A1 W2 A2 → sim W2 A2 W3 A3 → sim W1 A1 W3 A3.
Proof.
  intros H1 H2 w Hr M. destruct (H1 w Hr M) as (w1 & S1 & M1). destruct (H2 w1) as (w2 & S2 & M2); [unfold wreach in *; by etrans|done|].
  exists w2. split; [by etrans|done].
Qed.

Definition wanted (X K : gset obj) (x : thing) : Prop :=
  match x with TBp h => h_id h ∈ X | TPtr h => h_id h ∈ K | _ => False end.
Global Instance wanted_dec X K x : Decision (wanted X K x).
Proof. destruct x; cbn; apply _. Defined.

Lemma sim_adj W A W' A' :
  r_nobj A' = r_nobj A → r_who A' = r_who A → (∀ o, o ∈ W' → reach W A o) → (∀ o, r_stored A' o → reach W A o) →
  (∀ o, o ∈ r_known A' → o ∈ r_known A ∨ reach W A o) → sim W A W' A'.
Proof using Hpk.
  intros En Ew HW HS HK w Hr M. pose proof (wreach_ok w Hr) as Hw.
  set (X := W' ∪ r_store_set A'). set (N := r_known A' ∖ r_known A).
  destruct (grab_list W A w (elements X ++ elements N) Hw (mir_loose _ _ _ M)) as (m1 & hs & M1 & L1 & Hid1 & _).
  { intros o [Ho|Ho]%elem_of_app; apply elem_of_elements in Ho.
    - unfold X in Ho. apply elem_of_union in Ho as [Ho|Ho]; [by apply HW|]. by apply HS, r_store_set_in.
    - unfold N in Ho. apply elem_of_difference in Ho as [Ho Hn]. destruct (HK o Ho) as [?|?]; done. }
  set (w1 := World m1 _) in *.
  assert (∀ o, o ∈ X ∨ o ∈ N → bp_of w1 o) as Hbp.
  { intros o Ho. assert (o ∈ h_id <$> hs) as Hin.
    { rewrite Hid1. apply elem_of_app. destruct Ho; [left|right]; by apply elem_of_elements. }
    apply elem_of_list_fmap in Hin as (h & -> & Hh). exists h. split; [|done]. cbn. apply elem_of_app. left. by apply elem_of_list_fmap_1. }
  destruct (weak_list W A w1 (elements N) (proj1 (proj2 M1)) L1) as (m2 & ks & M2 & L2 & Hid2).
  { intros o Ho. apply elem_of_elements in Ho. apply Hbp. by right. }
  set (w2 := World m2 _) in *.
  destruct (discard (wanted X (r_known A')) w2 (proj1 (proj2 M2))) as [m3 M3].
  set (w3 := World m3 _) in *.
  pose proof (moves_trans _ _ _ M1 (moves_trans _ _ _ M2 M3)) as (Hs & W3 & T3).
  exists w3. split; [done|].
  assert (∀ h, TBp h ∈ pool w3 ↔ h_id h ∈ X ∧ TBp h ∈ pool w2) as Hp1 by (intros h; unfold w3; cbn [pool]; by rewrite elem_of_list_filter).
  assert (∀ h, TPtr h ∈ pool w3 ↔ h_id h ∈ r_known A' ∧ TPtr h ∈ pool w2) as Hp2 by (intros h; unfold w3; cbn [pool]; by rewrite elem_of_list_filter).
  split.
  - pose proof (blks_thin A (mm w) (mm w3) _ (mr_blks _ _ _ M) (proj1 W3) T3) as [B1 B2]. split; [congruence|]. rewrite Ew. exact B2.
  - intros x Hx. cbn in Hx. apply elem_of_list_filter in Hx as [_ Hx]. by apply (lo_only _ _ _ L2).
  - intros o. rewrite <- r_store_set_in, <- elem_of_union. fold X. split.
    + intros (h & Hh & <-). exact (proj1 (proj1 (Hp1 h) Hh)).
    + intros Ho. destruct (Hbp o (or_introl Ho)) as (h & Hh & <-). exists h. split; [|done]. apply Hp1. split; [done|].
      cbn. apply elem_of_app. by right.
  - intros o. split.
    + intros (h & Hh & <-). exact (proj1 (proj1 (Hp2 h) Hh)).
    + intros Ho. destruct (decide (o ∈ r_known A)) as [Hk|Hk].
      * apply (mr_weak _ _ _ M) in Hk as (h & Hh & <-). exists h. split; [|done]. apply Hp2. split; [done|].
        cbn. apply elem_of_app. right. cbn. apply elem_of_app. by right.
      * assert (o ∈ h_id <$> ks) as Hin by (rewrite Hid2; apply elem_of_elements, elem_of_difference; done).
        apply elem_of_list_fmap in Hin as (h & -> & Hh). exists h. split; [|done]. apply Hp2. split; [done|].
        cbn. apply elem_of_app. left. by apply elem_of_list_fmap_1.
Qed.

Lemma reach_live W A o : firm W A → reach W A o → o ∈ r_live A.
Proof.
  intros Hf (x & Hx & Hp). assert (x ∈ r_live A) as Hl by (destruct Hx; [by apply (fm_held _ _ _ Hf)|by apply (fm_stored _ _ _ Hf)]).
  clear Hx. induction Hp as [x|x y z Hxy _ IH]; [done|]. apply IH. by eapply (fm_part _ _ _ Hf).
Qed.
Lemma free_addr W A w a : wreach w → mir W A w → firm W A → r_free A a → heap (mm w) !! a = None.
Proof.
  intros Hr M Hf Hfr. destruct (heap (mm w) !! a) as [b|] eqn:Hb; [exfalso|done].
  destruct (bl_blk _ _ (mr_blks _ _ _ M) a b Hb) as (d & Hd & _).
  destruct (Hfr (k_id b)); [|unfold r_addr; by rewrite Hd].
  destruct (block_why W A w a b Hr M Hb) as [H|H]; [left; by eapply reach_live|by right].
Qed.
Lemma sim_alloc W A d a :
  firm W A → r_free A a → (∀ o, o ∈ fields d → reach W A o) → sim W A (W ∪ {[r_nobj A]}) (r_alloc d a A).
Proof using Hpk.
  intros Hf Hfr Hd w Hr M. pose proof (wreach_ok w Hr) as Hw. pose proof (free_addr W A w a Hr M Hf Hfr) as Ha.
  destruct (grab_list W A w (elements (fields d)) Hw (mir_loose _ _ _ M)) as (m1 & hs & (S1 & W1 & T1) & L1 & Hid1 & Hbin).
  { intros o Ho. apply elem_of_elements in Ho. by apply Hd. }
  assert (heap m1 !! a = None) as Ha1.
  { destruct (heap m1 !! a) as [b|] eqn:Hb; [|done]. destruct (proj2 T1 a b Hb) as (b0 & Hb0 & _). cbn in Hb0. congruence. }
  set (x := Hnd pk (AsBin 0) a (next m1)).
  set (m2 := Mem (<[a := Blk (next m1) pk 0 VUnit ((TBp <$> hs) ≫= handles) 1 0]> (heap m1)) (N.succ (next m1))).
  assert (((TBp <$> hs) ≫= handles) = hs) as Hhs.
  { clear. induction hs as [|h hs IH]; [done|]. cbn. by rewrite <- IH at 2. }
  exists (World m2 (TBp x :: pool w)). split.
  { eapply rtc_r; [exact S1|]. apply (w_bp_new pk a 0 VUnit (TBp <$> hs) (pool w) m1 x m2 Hpk). unfold ptr_new. by rewrite Ha1. }
  destruct (lo_blks _ _ _ L1) as [Nn Bb]. cbn [mm] in Nn, Bb. split.
  - split; [cbn; by rewrite Nn|]. intros p b Hb. cbn in Hb. apply lookup_insert_Some in Hb as [[<- <-]|[Hne Hb]].
    + exists d. cbn [k_id k_kind k_owns k_strong r_alloc r_who]. rewrite Hhs, Nn. split; [apply lookup_insert|]. split; [done|]. split; [exact Hbin|].
      intros _ o. rewrite <- (elem_of_elements (fields d)), <- Hid1. rewrite elem_of_list_fmap. split; intros (h & H1 & H2); exists h; by split.
    + destruct (Bb p b Hb) as (d' & Hd' & Hrest). exists d'. split; [|done]. cbn. rewrite lookup_insert_ne; [done|].
      pose proof (bo_id _ _ _ _ (ok_blk _ _ (proj1 W1) _ _ Hb)) as Hlt. cbn in Hlt. rewrite <- Nn. lia.
  - intros y Hy. cbn in Hy. apply elem_of_cons in Hy as [->|Hy]; [left; by exists x|by apply (mr_only _ _ _ M)].
  - intros o. change (r_stored (r_alloc d a A) o) with (r_stored A o). rewrite elem_of_union, elem_of_singleton. split.
    + intros (h & Hh & <-). cbn in Hh. apply elem_of_cons in Hh as [[= ->]|Hh]; [left; right; by cbn; rewrite Nn|].
      destruct (proj1 (mr_held _ _ _ M (h_id h))) as [?|?]; [by exists h|by left; left|by right].
    + intros [[Ho| ->]|Ho].
      * destruct (proj2 (mr_held _ _ _ M o) (or_introl Ho)) as (h & Hh & <-). exists h. split; [by right|done].
      * exists x. split; [by left|]. cbn. by rewrite Nn.
      * destruct (proj2 (mr_held _ _ _ M o) (or_intror Ho)) as (h & Hh & <-). exists h. split; [by right|done].
  - intros o. change (r_known (r_alloc d a A)) with (r_known A). rewrite <- (mr_weak _ _ _ M o). split.
    + intros (h & Hh & <-). cbn in Hh. apply elem_of_cons in Hh as [[=]|Hh]. by exists h.
    + intros (h & Hh & <-). exists h. split; [by right|done].
Qed.
End MemFacts.
