(** Invariants of the reference counting model. *)
From Verif Require Export Rc.
From stdpp Require Import relations.

Definition sp (p : addr) (x : hnd) : Prop := h_ptr x = p ∧ is_strong x = true.
Definition wp (p : addr) (x : hnd) : Prop := h_ptr x = p ∧ is_weak x = true.
Global Instance sp_dec p x : Decision (sp p x).
Proof. unfold sp. apply _. Defined.
Global Instance wp_dec p x : Decision (wp p x).
Proof. unfold wp. apply _. Defined.
Definition cs (p : addr) (l : list hnd) : nat := length (filter (sp p) l).
Definition cw (p : addr) (l : list hnd) : nat := length (filter (wp p) l).

Global Arguments cs : simpl never.
Global Arguments cw : simpl never.
Global Instance cs_perm p : Proper ((≡ₚ) ==> (=)) (cs p).
Proof. intros l l' H. unfold cs. by rewrite H. Qed.
Global Instance cw_perm p : Proper ((≡ₚ) ==> (=)) (cw p).
Proof. intros l l' H. unfold cw. by rewrite H. Qed.
Lemma cs_app p l l' : cs p (l ++ l') = cs p l + cs p l'.
Proof. unfold cs. by rewrite filter_app, app_length. Qed.
Lemma cw_app p l l' : cw p (l ++ l') = cw p l + cw p l'.
Proof. unfold cw. by rewrite filter_app, app_length. Qed.
Lemma cs_cons p x l : cs p (x :: l) = (if (h_ptr x =? p)%N then if is_weak x then 0 else 1 else 0) + cs p l.
Proof.
  unfold cs. rewrite filter_cons. destruct (decide (sp p x)) as [[<- H]|H].
  - unfold is_strong in H. rewrite N.eqb_refl. by destruct (is_weak x).
  - destruct (N.eqb_spec (h_ptr x) p) as [<-|]; [|done]. destruct (is_weak x) eqn:E; [done|].
    destruct H. split; [done|]. unfold is_strong. by rewrite E.
Qed.
Lemma cw_cons p x l : cw p (x :: l) = (if (h_ptr x =? p)%N then if is_weak x then 1 else 0 else 0) + cw p l.
Proof.
  unfold cw. rewrite filter_cons. destruct (decide (wp p x)) as [[<- H]|H].
  - rewrite N.eqb_refl. by rewrite H.
  - destruct (N.eqb_spec (h_ptr x) p) as [<-|]; [|done]. destruct (is_weak x) eqn:E; [|done]. by destruct H.
Qed.
Lemma cs_pos p l : 0 < cs p l ↔ ∃ x, x ∈ l ∧ sp p x.
Proof.
  unfold cs. destruct (filter (sp p) l) as [|x l'] eqn:Hf.
  - cbn. split; [lia|]. intros (x & Hx & Hp). assert (x ∈ filter (sp p) l) as H by (by apply elem_of_list_filter).
    rewrite Hf in H. by apply elem_of_nil in H.
  - cbn. split; [|lia]. intros _. exists x. assert (x ∈ filter (sp p) l) as H by (rewrite Hf; left). apply elem_of_list_filter in H as [??]. done.
Qed.
Lemma cw_pos p l : 0 < cw p l ↔ ∃ x, x ∈ l ∧ wp p x.
Proof.
  unfold cw. destruct (filter (wp p) l) as [|x l'] eqn:Hf.
  - cbn. split; [lia|]. intros (x & Hx & Hp). assert (x ∈ filter (wp p) l) as H by (by apply elem_of_list_filter).
    rewrite Hf in H. by apply elem_of_nil in H.
  - cbn. split; [|lia]. intros _. exists x. assert (x ∈ filter (wp p) l) as H by (rewrite Hf; left). apply elem_of_list_filter in H as [??]. done.
Qed.

(** ** What contents own *)
Lemma owned_new h p b : h !! p = None → owned (<[p := b]> h) ≡ₚ k_owns b ++ owned h.
Proof. intros Hp. unfold owned. by rewrite (map_to_list_insert h p b Hp). Qed.
Lemma owned_split h p b : h !! p = Some b → owned h ≡ₚ k_owns b ++ owned (delete p h).
Proof. intros Hp. rewrite <- (insert_delete h p b Hp) at 1. apply owned_new. apply lookup_delete. Qed.
Lemma owned_put h p b b' : h !! p = Some b → owned (<[p := b']> h) ≡ₚ k_owns b' ++ owned (delete p h).
Proof. intros Hp. rewrite <- insert_delete_insert. apply owned_new. apply lookup_delete. Qed.
Lemma owned_in h x : x ∈ owned h ↔ ∃ p b, h !! p = Some b ∧ x ∈ k_owns b.
Proof.
  unfold owned. rewrite elem_of_list_join. setoid_rewrite elem_of_list_fmap. split.
  - intros (l & Hx & [p b] & -> & Hin). apply elem_of_map_to_list in Hin. eauto.
  - intros (p & b & Hp & Hx). exists (k_owns b). split; [done|]. exists (p, b). split; [done|]. by apply elem_of_map_to_list.
Qed.
Lemma owned_same h p b b' : h !! p = Some b → k_owns b' = k_owns b → owned (<[p := b']> h) ≡ₚ owned h.
Proof. intros Hp Ho. by rewrite (owned_put h p b b' Hp), Ho, <- (owned_split h p b Hp). Qed.

(** ** The invariant: [xs] are the smart pointers held outside of the memory *)
Definition refs (m : mem) (xs : list hnd) : list hnd := xs ++ owned (heap m).
Record blk_ok (m : mem) (xs : list hnd) (p : addr) (b : blk) : Prop := {
  bo_strong : k_strong b = cs p (refs m xs);
  bo_weak : k_weak b = cw p (refs m xs);
  bo_used : 0 < k_strong b + k_weak b;
  bo_dead : k_strong b = 0 → k_owns b = [];
  bo_id : (k_id b < next m)%N;
  bo_box : k_kind b = PBox → k_strong b = 1 ∧ k_weak b = 0;
  bo_older : ∀ x, x ∈ k_owns b → (h_id x < k_id b)%N;
}.
Record ok (m : mem) (xs : list hnd) : Prop := {
  ok_blk : ∀ p b, heap m !! p = Some b → blk_ok m xs p b;
  ok_hnd : ∀ x, x ∈ refs m xs → ∃ b, heap m !! h_ptr x = Some b ∧ k_id b = h_id x ∧ k_ty b = h_ty x ∧ k_kind b = h_kind x;
  ok_ids : ∀ p q b c, heap m !! p = Some b → heap m !! q = Some c → k_id b = k_id c → p = q;
}.

(** A block with the same static part. *)
Definition alike (b b' : blk) : Prop := k_id b' = k_id b ∧ k_kind b' = k_kind b ∧ k_ty b' = k_ty b ∧ k_val b' = k_val b.
(** From [m] to [m'] only counts change, blocks are freed, and new ones are
    made. *)
Definition frame (m m' : mem) : Prop :=
  (next m ≤ next m')%N ∧
  ∀ p b', heap m' !! p = Some b' → (k_id b' < next m)%N → ∃ b, heap m !! p = Some b ∧ alike b b'.
Global Instance alike_refl : Reflexive alike.
Proof. done. Qed.
Global Instance frame_refl : Reflexive frame.
Proof. intros m. split; [lia|]. intros p b Hp _. by exists b. Qed.
Lemma frame_trans m1 m2 m3 : frame m1 m2 → frame m2 m3 → frame m1 m3.
Proof.
  intros [H1 F1] [H2 F2]. split; [lia|]. intros p b Hp Hi.
  destruct (F2 p b Hp) as (b2 & Hp2 & A2); [lia|]. destruct A2 as (A & B & C & D).
  destruct (F1 p b2 Hp2) as (b1 & Hp1 & A1); [by rewrite <- A|]. exists b1. split; [done|].
  destruct A1 as (?&?&?&?). repeat split; congruence.
Qed.
Lemma frame_put m p b b' : heap m !! p = Some b → alike b b' → frame m (put p b' m).
Proof.
  intros Hp Ha. split; [cbn; lia|]. intros q c Hq _. cbn in Hq. apply lookup_insert_Some in Hq as [[<- <-]|[_ Hq]]; [eauto|by exists c].
Qed.
Lemma frame_settle m p b b' : heap m !! p = Some b → alike b b' → frame m (settle p b' m).
Proof.
  intros Hp Ha. unfold settle. destruct (k_strong b'); [destruct (k_weak b')|]; try by eapply frame_put.
  split; [cbn; lia|]. intros q c Hq _. cbn in Hq. apply lookup_delete_Some in Hq as [_ Hq]. by exists c.
Qed.

Lemma ok_perm m xs xs' : xs ≡ₚ xs' → ok m xs → ok m xs'.
Proof.
  intros Hp [B H I]. split; [|intros x Hx; apply H; unfold refs in *; by rewrite Hp|done].
  intros p b Hb. destruct (B p b Hb) as [b1 b2 b3 b4 b5 b6 b7]. split; try done; unfold refs in *; by rewrite <- Hp.
Qed.

(** One more pointer to an existing block. *)
Lemma ok_add m xs y b b' :
  ok m xs → heap m !! h_ptr y = Some b → h_kind y ≠ PBox →
  k_id b = h_id y → k_ty b = h_ty y → k_kind b = h_kind y → alike b b' → k_owns b' = k_owns b →
  k_strong b' = (if is_weak y then k_strong b else S (k_strong b)) →
  k_weak b' = (if is_weak y then S (k_weak b) else k_weak b) →
  (is_weak y = false → 0 < k_strong b) →
  ok (put (h_ptr y) b' m) (y :: xs).
Proof.
  intros [B H I] Hb Hk Hid Hty Hkd (Aid & Akd & Aty & Aval) Ho Hs Hw Hpos.
  assert (refs (put (h_ptr y) b' m) (y :: xs) ≡ₚ y :: refs m xs) as Hr.
  { unfold refs. cbn. by rewrite (owned_same _ _ _ _ Hb Ho). }
  destruct (B _ _ Hb) as [b1 b2 b3 b4 b5 b6 b7]. split.
  - intros p c Hc. cbn in Hc. apply lookup_insert_Some in Hc as [[<- <-]|[Hne Hc]].
    + split; try rewrite Hr; try rewrite Ho; try rewrite Aid; try rewrite Akd; cbn; try done.
      * rewrite cs_cons, Hs, b1, N.eqb_refl. by destruct (is_weak y).
      * rewrite cw_cons, Hw, b2, N.eqb_refl. by destruct (is_weak y).
      * destruct (is_weak y); lia.
      * destruct (is_weak y); intros H0; [by apply b4; lia|lia].
      * intros Hx. congruence.
    + destruct (B _ _ Hc) as [c1 c2 c3 c4 c5 c6 c7]. split; try rewrite Hr; try done.
      * rewrite cs_cons, c1. by destruct (N.eqb_spec (h_ptr y) p).
      * rewrite cw_cons, c2. by destruct (N.eqb_spec (h_ptr y) p).
  - intros x Hx. rewrite Hr in Hx. apply elem_of_cons in Hx as [->|Hx].
    + exists b'. cbn. rewrite lookup_insert. split_and!; congruence.
    + destruct (H x Hx) as (c & Hc & c1 & c2 & c3). cbn. destruct (decide (h_ptr y = h_ptr x)) as [Heq|Hne].
      * rewrite Heq in *. rewrite Hb in Hc. injection Hc as <-. exists b'. rewrite lookup_insert. split_and!; congruence.
      * exists c. by rewrite lookup_insert_ne.
  - intros p q c d Hc Hd Hcd. cbn in Hc, Hd.
    apply lookup_insert_Some in Hc as [[<- <-]|[Hn1 Hc]]; apply lookup_insert_Some in Hd as [[<- <-]|[Hn2 Hd]]; [done|..].
    + eapply I; [exact Hb|exact Hd|congruence].
    + eapply I; [exact Hc|exact Hb|congruence].
    + by eapply I.
Qed.

(** What a content owns is moved out of it. *)
Lemma ok_move m xs p b :
  ok m xs → heap m !! p = Some b →
  ok (put p (Blk (k_id b) (k_kind b) (k_ty b) (k_val b) [] (k_strong b) (k_weak b)) m) (k_owns b ++ xs).
Proof.
  intros [B H I] Hb. set (b' := Blk _ _ _ _ _ _ _).
  assert (refs (put p b' m) (k_owns b ++ xs) ≡ₚ refs m xs) as Hr.
  { unfold refs. cbn. rewrite (owned_put _ _ _ _ Hb), (owned_split _ _ _ Hb). cbn. rewrite <- app_assoc.
    rewrite !app_assoc. f_equiv. apply Permutation_app_comm. }
  split.
  - intros q c Hc. cbn in Hc. apply lookup_insert_Some in Hc as [[<- <-]|[Hne Hc]].
    + destruct (B _ _ Hb) as [b1 b2 b3 b4 b5 b6 b7]. split; try rewrite Hr; try done. intros x. cbn. set_solver.
    + destruct (B _ _ Hc). split; try rewrite Hr; done.
  - intros x Hx. rewrite Hr in Hx. destruct (H x Hx) as (c & Hc & ?). cbn. destruct (decide (p = h_ptr x)) as [->|Hne].
    + rewrite lookup_insert. rewrite Hb in Hc. injection Hc as <-. by eexists.
    + exists c. by rewrite lookup_insert_ne.
  - intros q r c d Hc Hd Hcd. cbn in Hc, Hd.
    apply lookup_insert_Some in Hc as [[<- <-]|[Hn1 Hc]]; apply lookup_insert_Some in Hd as [[<- <-]|[Hn2 Hd]]; [done|..].
    + by eapply I.
    + by eapply I.
    + by eapply I.
Qed.

(** One pointer less. *)
Lemma ok_remove m xs x b b' :
  ok m (x :: xs) → heap m !! h_ptr x = Some b → alike b b' → k_owns b' = k_owns b →
  (k_strong b' = 0 → k_owns b = []) →
  k_strong b = (if is_weak x then k_strong b' else S (k_strong b')) →
  k_weak b = (if is_weak x then S (k_weak b') else k_weak b') →
  ok (settle (h_ptr x) b' m) xs.
Proof.
  intros [B H I] Hb (Aid & Akd & Aty & Aval) Ho Hdead Hs Hw.
  destruct (B _ _ Hb) as [b1 b2 b3 b4 b5 b6 b7].
  assert (∀ m', owned (heap m') ≡ₚ owned (heap m) → x :: refs m' xs ≡ₚ refs m (x :: xs)) as Hr.
  { intros m' Hm. unfold refs. cbn. by rewrite Hm. }
  assert (∀ m', owned (heap m') ≡ₚ owned (heap m) → k_strong b' = cs (h_ptr x) (refs m' xs) ∧ k_weak b' = cw (h_ptr x) (refs m' xs)) as Hcnt.
  { intros m' Hm. rewrite <- (Hr m' Hm), cs_cons in b1. rewrite <- (Hr m' Hm), cw_cons in b2. rewrite N.eqb_refl in b1, b2.
    destruct (is_weak x); lia. }
  assert (∀ m', owned (heap m') ≡ₚ owned (heap m) → next m' = next m →
    ∀ p c, heap m !! p = Some c → p ≠ h_ptr x → blk_ok m' xs p c) as Hoth.
  { intros m' Hm Hnx p c Hc Hne. destruct (B _ _ Hc) as [c1 c2 c3 c4 c5 c6 c7]. split; try done.
    - rewrite <- (Hr m' Hm), cs_cons in c1. by destruct (N.eqb_spec (h_ptr x) p).
    - rewrite <- (Hr m' Hm), cw_cons in c2. by destruct (N.eqb_spec (h_ptr x) p).
    - by rewrite Hnx. }
  unfold settle. destruct (decide (k_strong b' = 0 ∧ k_weak b' = 0)) as [[Hs0 Hw0]|Hnz].
  - rewrite Hs0, Hw0.
    assert (owned (heap (free (h_ptr x) m)) ≡ₚ owned (heap m)) as Hm.
    { cbn. rewrite (owned_split _ _ _ Hb). by rewrite (Hdead Hs0). }
    destruct (Hcnt _ Hm) as [C1 C2]. split.
    + intros p c Hc. cbn in Hc. apply lookup_delete_Some in Hc as [Hne Hc]. apply (Hoth _ Hm); done.
    + intros y Hy. destruct (H y) as (c & Hc & ?). { rewrite <- (Hr _ Hm). by right. }
      exists c. cbn. rewrite lookup_delete_ne; [done|]. intros Heq.
      destruct (is_weak y) eqn:Hyw.
      * assert (0 < cw (h_ptr x) (refs (free (h_ptr x) m) xs)) by (apply cw_pos; exists y; unfold wp; naive_solver). lia.
      * assert (0 < cs (h_ptr x) (refs (free (h_ptr x) m) xs)); [|lia].
        apply cs_pos; exists y; unfold sp, is_strong; rewrite Hyw; naive_solver.
    + intros p q c d Hc Hd. cbn in Hc, Hd. apply lookup_delete_Some in Hc as [_ Hc]. apply lookup_delete_Some in Hd as [_ Hd]. by eapply I.
  - assert (match k_strong b', k_weak b' with 0, 0 => free (h_ptr x) m | _, _ => put (h_ptr x) b' m end = put (h_ptr x) b' m) as ->.
    { destruct (k_strong b'); [destruct (k_weak b')|]; try done. exfalso. by apply Hnz. }
    assert (owned (heap (put (h_ptr x) b' m)) ≡ₚ owned (heap m)) as Hm by (by apply (owned_same _ _ _ _ Hb)).
    destruct (Hcnt _ Hm) as [C1 C2]. split.
    + intros p c Hc. cbn in Hc. apply lookup_insert_Some in Hc as [[<- <-]|[Hne Hc]]; [|by apply (Hoth _ Hm)].
      split; try done.
      * destruct (k_strong b'); [destruct (k_weak b')|]; try lia.
      * intros H0. rewrite Ho. by apply Hdead.
      * cbn. by rewrite Aid.
      * rewrite Akd. intros Hbox. destruct (b6 Hbox) as [E1 E2]. exfalso. apply Hnz.
        destruct (is_weak x); lia.
      * rewrite Ho, Aid. done.
    + intros y Hy. destruct (H y) as (c & Hc & c1 & c2 & c3). { rewrite <- (Hr _ Hm). by right. }
      cbn. destruct (decide (h_ptr x = h_ptr y)) as [Heq|Hne].
      * rewrite Heq in *. rewrite Hb in Hc. injection Hc as <-. exists b'. rewrite lookup_insert. split_and!; congruence.
      * exists c. by rewrite lookup_insert_ne.
    + intros p q c d Hc Hd Hcd. cbn in Hc, Hd.
      apply lookup_insert_Some in Hc as [[<- <-]|[Hn1 Hc]]; apply lookup_insert_Some in Hd as [[<- <-]|[Hn2 Hd]]; [done|..].
      * eapply I; [exact Hb|exact Hd|congruence].
      * eapply I; [exact Hc|exact Hb|congruence].
      * by eapply I.
Qed.

(** Another view of the same pointer. *)
Lemma ok_view m xs x y :
  h_ptr y = h_ptr x → h_id y = h_id x → h_ty y = h_ty x → h_kind y = h_kind x → is_weak y = is_weak x →
  ok m (x :: xs) → ok m (y :: xs).
Proof.
  intros Hp Hi Ht Hk Hw [B H I].
  split; [|intros z Hz; apply elem_of_cons in Hz as [->|Hz]; [|by apply H; right]|done].
  - intros p b Hb. destruct (B _ _ Hb) as [b1 b2 b3 b4 b5 b6 b7]. split; try done.
    + rewrite b1. unfold refs. cbn [app]. rewrite !cs_cons. by rewrite Hp, Hw.
    + rewrite b2. unfold refs. cbn [app]. rewrite !cw_cons. by rewrite Hp, Hw.
  - destruct (H x) as (b & ?); [left|]. exists b. by rewrite Hp, Hi, Ht, Hk.
Qed.

(** A new block. *)
Lemma ok_new m xs k p t v owns x m' :
  ok m (owns ++ xs) → ptr_new k p t v owns m = Some (x, m') →
  ok m' (x :: xs) ∧ frame m m' ∧ h_id x = next m ∧ h_view x = AsBin t ∧ h_kind x = k ∧ h_ptr x = p ∧ heap m !! p = None ∧
  heap m' !! p = Some (Blk (next m) k t v owns 1 0).
Proof.
  intros [B H I] Hn. unfold ptr_new in Hn. destruct (heap m !! p) as [?|] eqn:Hp; [done|]. injection Hn as <- <-.
  set (b := Blk _ _ _ _ _ _ _). set (x := Hnd _ _ _ _). set (m' := Mem _ _).
  assert (refs m' (x :: xs) ≡ₚ x :: refs m (owns ++ xs)) as Hr.
  { unfold refs. cbn. rewrite (owned_new _ _ b Hp). cbn. rewrite !app_assoc. do 2 f_equiv. apply Permutation_app_comm. }
  assert (∀ y, y ∈ refs m (owns ++ xs) → h_ptr y ≠ p) as Hnp.
  { intros y Hy <-. destruct (H y Hy) as (c & Hc & _). congruence. }
  assert (cs p (refs m (owns ++ xs)) = 0) as C1.
  { destruct (cs p _) eqn:E; [done|]. destruct (proj1 (cs_pos p (refs m (owns ++ xs)))) as (y & Hy & [Hyp _]); [lia|]. by destruct (Hnp y Hy). }
  assert (cw p (refs m (owns ++ xs)) = 0) as C2.
  { destruct (cw p _) eqn:E; [done|]. destruct (proj1 (cw_pos p (refs m (owns ++ xs)))) as (y & Hy & [Hyp _]); [lia|]. by destruct (Hnp y Hy). }
  split_and!; try done.
  - split.
    + intros q c Hc. cbn in Hc. apply lookup_insert_Some in Hc as [[<- <-]|[Hne Hc]].
      * split; try rewrite Hr; cbn.
        -- rewrite cs_cons, C1. cbn. by rewrite N.eqb_refl.
        -- rewrite cw_cons, C2. cbn. by rewrite N.eqb_refl.
        -- lia.
        -- done.
        -- lia.
        -- done.
        -- intros y Hy. destruct (H y) as (c & Hc & Hi & _). { unfold refs. set_solver. } rewrite <- Hi. by apply (bo_id _ _ _ _ (B _ _ Hc)).
      * destruct (B _ _ Hc) as [c1 c2 c3 c4 c5 c6 c7]. split; try rewrite Hr; try done.
        -- rewrite cs_cons, c1. cbn. by destruct (N.eqb_spec p q).
        -- rewrite cw_cons, c2. cbn. by destruct (N.eqb_spec p q).
        -- cbn. lia.
    + intros y Hy. rewrite Hr in Hy. apply elem_of_cons in Hy as [->|Hy].
      * exists b. cbn. by rewrite lookup_insert.
      * destruct (H y Hy) as (c & Hc & ?). exists c. cbn. rewrite lookup_insert_ne; [done|]. intros Heq. by apply (Hnp y Hy).
    + intros q r c d Hc Hd Hcd. cbn in Hc, Hd.
      apply lookup_insert_Some in Hc as [[<- <-]|[Hn1 Hc]]; apply lookup_insert_Some in Hd as [[<- <-]|[Hn2 Hd]]; [done|..].
      * pose proof (bo_id _ _ _ _ (B _ _ Hd)). cbn in Hcd. lia.
      * pose proof (bo_id _ _ _ _ (B _ _ Hc)). cbn in Hcd. lia.
      * by eapply I.
  - split; [cbn; lia|]. intros q c Hc Hi. cbn in Hc. apply lookup_insert_Some in Hc as [[<- <-]|[Hne Hc]].
    + cbn in Hi. lia.
    + by exists c.
  - cbn. by rewrite lookup_insert.
Qed.

(** Dropping never meets a dangling pointer, and ends. *)
Lemma drop_ok fuel : ∀ todo m xs,
  ok m (todo ++ xs) → length todo + length (owned (heap m)) ≤ fuel →
  ∃ m', drop_loop fuel todo m = Some m' ∧ ok m' xs ∧ frame m m'.
Proof.
  induction fuel as [|fuel IH]; intros todo m xs Hok Hf.
  { destruct todo; [|cbn in Hf; lia]. exists m. split_and!; [done|done|reflexivity]. }
  destruct todo as [|x todo]; [exists m; split_and!; [done|done|reflexivity]|].
  destruct (ok_hnd _ _ Hok x) as (b & Hb & Hid & _); [unfold refs; left|].
  destruct (ok_blk _ _ Hok _ _ Hb) as [b1 b2 b3 b4 b5 b6 b7].
  cbn [drop_loop]. rewrite Hb. destruct (is_weak x) eqn:Hw.
  - assert (0 < k_weak b) as Hpos by (rewrite b2; apply cw_pos; exists x; split; [left|done]).
    destruct (k_weak b) as [|n] eqn:Hkw; [lia|]. set (b' := Blk _ _ _ _ _ _ n).
    assert (ok (settle (h_ptr x) b' m) (todo ++ xs)) as Hok'.
    { eapply (ok_remove _ _ x b b'); try done; by rewrite Hw. }
    assert (frame m (settle (h_ptr x) b' m)) as Hfr by (by eapply frame_settle).
    destruct (IH todo _ xs Hok') as (m' & Hd & Ho & Hf').
    { assert (length (owned (heap (settle (h_ptr x) b' m))) ≤ length (owned (heap m))).
      { unfold settle. destruct (k_strong b'); [destruct (k_weak b')|]; cbn.
        - rewrite (owned_split _ _ _ Hb), app_length. lia.
        - by rewrite (owned_same _ _ _ _ Hb).
        - by rewrite (owned_same _ _ _ _ Hb). }
      cbn in Hf. lia. }
    exists m'. split_and!; [done|done|by eapply frame_trans].
  - assert (0 < k_strong b) as Hpos by (rewrite b1; apply cs_pos; exists x; split; [left|unfold sp, is_strong; by rewrite Hw]).
    destruct (k_strong b) as [|[|n]] eqn:Hks; [lia| |].
    + pose proof (ok_move _ _ _ _ Hok Hb) as Hmv. rewrite Hks in Hmv. set (b0 := Blk _ _ _ _ _ 1 _) in Hmv. set (b' := Blk _ _ _ _ [] 0 _).
      assert (ok (settle (h_ptr x) b' (put (h_ptr x) b0 m)) ((k_owns b ++ todo) ++ xs)) as Hok'.
      { eapply (ok_remove _ _ x b0 b'); try done.
        - eapply ok_perm; [|exact Hmv]. rewrite <- !app_assoc. cbn. symmetry. apply Permutation_middle.
        - cbn. by rewrite lookup_insert.
        - by rewrite Hw.
        - by rewrite Hw. }
      assert (settle (h_ptr x) b' (put (h_ptr x) b0 m) = settle (h_ptr x) b' m) as Hse.
      { unfold settle. cbn. destruct (k_weak b); unfold free, put; cbn; [by rewrite delete_insert_delete|by rewrite insert_insert]. }
      rewrite Hse in Hok'. assert (frame m (settle (h_ptr x) b' m)) as Hfr by (by eapply frame_settle).
      destruct (IH (k_owns b ++ todo) _ xs Hok') as (m' & Hd & Ho & Hf').
      { assert (length (k_owns b) + length (owned (heap (settle (h_ptr x) b' m))) ≤ length (owned (heap m))).
        { unfold settle. cbn. destruct (k_weak b); cbn; rewrite (owned_split _ _ _ Hb), ?(owned_put _ _ _ _ Hb), !app_length; cbn; lia. }
        cbn in Hf. rewrite app_length. lia. }
      exists m'. split_and!; [done|done|by eapply frame_trans].
    + set (b' := Blk _ _ _ _ _ (S n) _).
      assert (ok (settle (h_ptr x) b' m) (todo ++ xs)) as Hok'.
      { eapply (ok_remove _ _ x b b'); try done; by rewrite Hw. }
      assert (frame m (settle (h_ptr x) b' m)) as Hfr by (by eapply frame_settle).
      destruct (IH todo _ xs Hok') as (m' & Hd & Ho & Hf').
      { assert (length (owned (heap (settle (h_ptr x) b' m))) ≤ length (owned (heap m))) by (cbn; by rewrite (owned_same _ _ _ _ Hb)).
        cbn in Hf. lia. }
      exists m'. split_and!; [done|done|by eapply frame_trans].
Qed.
Lemma ptr_drop_ok todo m xs : ok m (todo ++ xs) → ∃ m', ptr_drop todo m = Some m' ∧ ok m' xs ∧ frame m m'.
Proof. intros Hok. by apply drop_ok. Qed.
Lemma ptr_drop_inv todo m xs m' : ok m (todo ++ xs) → ptr_drop todo m = Some m' → ok m' xs ∧ frame m m'.
Proof. intros Hok Hd. destruct (ptr_drop_ok _ _ _ Hok) as (m2 & Hd2 & ?). rewrite Hd in Hd2. by injection Hd2 as <-. Qed.

(** ** Things *)
Global Arguments ptr_drop : simpl never.
Global Arguments ptr_clone : simpl never.
Definition tok (x : thing) : Prop :=
  match x with
  | TBp b => (∃ t, h_view b = AsBin t) ∧ h_kind b ≠ PBox
  | TBpu b c | TDyn b c =>
    is_weak b = false ∧ h_kind b ≠ PBox ∧ c = from_bin b
  | TArt c => (∃ t, h_view c = AsCan t) ∧ h_kind c ≠ PBox
  | TPtr _ => True
  end.
Definition held (w : world) : list hnd := pool w ≫= handles.
Definition wok (w : world) : Prop := ok (mm w) (held w) ∧ Forall tok (pool w).

Lemma held_in w x h : x ∈ pool w → h ∈ handles x → h ∈ held w.
Proof. intros Hx Hh. apply elem_of_list_bind. eauto. Qed.
Lemma bind_perm (l l' : list thing) : l ≡ₚ l' → l ≫= handles ≡ₚ l' ≫= handles.
Proof. intros H. by rewrite H. Qed.

Lemma clone_ok m xs x y m' :
  ok m xs → x ∈ refs m xs → ptr_clone x m = Some (y, m') →
  y = x ∧ ok m' (x :: xs) ∧ frame m m' ∧ h_kind x ≠ PBox.
Proof.
  intros Hok Hx Hc. unfold ptr_clone in Hc. destruct (ok_hnd _ _ Hok x Hx) as (b & Hb & Hid & Hty & Hk). rewrite Hb in Hc.
  set (b' := if is_weak x then _ else _) in Hc.
  assert (h_kind x ≠ PBox ∧ y = x ∧ m' = put (h_ptr x) b' m) as (Hn & -> & ->) by (destruct (h_kind x); by simplify_eq).
  assert (alike b b') as Ha by (unfold b'; by destruct (is_weak x)).
  split_and!; [done| |by eapply frame_put|done].
  apply (ok_add _ _ x b b'); try done.
  - unfold b'. by destruct (is_weak x).
  - unfold b'. by destruct (is_weak x).
  - unfold b'. by destruct (is_weak x).
  - intros Hw. rewrite (bo_strong _ _ _ _ (ok_blk _ _ Hok _ _ Hb)). apply cs_pos. exists x. split; [done|]. split; [done|]. unfold is_strong. by rewrite Hw.
Qed.
Lemma clone_total m xs x :
  ok m xs → x ∈ refs m xs → h_kind x ≠ PBox → ∃ m', ptr_clone x m = Some (x, m').
Proof.
  intros Hok Hx Hk. unfold ptr_clone. destruct (ok_hnd _ _ Hok x Hx) as (b & Hb & _). rewrite Hb.
  destruct (h_kind x); try done; eauto.
Qed.
Lemma refs_head m x xs : x ∈ refs m (x :: xs).
Proof. unfold refs. left. Qed.
Lemma refs_in m x xs : x ∈ xs → x ∈ refs m xs.
Proof. intros H. unfold refs. set_solver. Qed.
Lemma from_bin_ok m x xs : is_weak x = false → ok m (x :: xs) → ok m (from_bin x :: xs).
Proof. intros Hw. by apply ok_view. Qed.
Lemma bin_unsized_ok m x xs : is_weak x = false → ok m (x :: xs) → ok m (bin_unsized x :: xs).
Proof. intros Hw. by apply ok_view. Qed.
Lemma ok_swap m x y xs : ok m (x :: y :: xs) → ok m (y :: x :: xs).
Proof. apply ok_perm. constructor. Qed.

Lemma bpu_binned_ok m b y m' xs :
  ok m (b :: xs) → is_weak b = false → bpu_binned b m = Some (y, m') →
  y = TBpu b (from_bin b) ∧ ok m' (handles y ++ xs) ∧ tok y ∧ frame m m'.
Proof.
  intros Hok Hw Hb. unfold bpu_binned in Hb. destruct (ptr_clone b m) as [[z m1]|] eqn:Hc; [|done]. injection Hb as <- <-.
  destruct (clone_ok _ _ _ _ _ Hok (refs_head _ _ _) Hc) as (-> & Ho & Hf & Hk). split_and!; try done.
  cbn. apply ok_swap. apply from_bin_ok; [done|]. done.
Qed.
Lemma can_unsized_ok m b y z m' xs :
  ok m (b :: xs) → can_unsized b m = Some (y, z, m') →
  y = bin_unsized b ∧ z = from_bin b ∧ ok m' (y :: z :: xs) ∧ is_weak b = false ∧ h_kind b = PRc ∧ frame m m'.
Proof.
  intros Hok Hb. unfold can_unsized in Hb. destruct (h_kind b) eqn:Hk; try done. destruct (h_view b) eqn:Hv; try done.
  destruct (ptr_clone b m) as [[x m1]|] eqn:Hc; [|done]. injection Hb as <- <- <-.
  assert (is_weak b = false) as Hw by (unfold is_weak; by rewrite Hv).
  destruct (clone_ok _ _ _ _ _ Hok (refs_head _ _ _) Hc) as (-> & Ho & Hf & _). split_and!; try done.
  apply bin_unsized_ok; [done|]. apply ok_swap, from_bin_ok; done.
Qed.

(** Which allocation a blueprint refers to (ghost). *)
Definition alloc_of (x : thing) : N :=
  match x with TBp b | TBpu b _ | TDyn b _ | TArt b | TPtr b => h_id b end.
Definition kind_of (x : thing) : ptrkind :=
  match x with TBp b | TBpu b _ | TDyn b _ | TArt b | TPtr b => h_kind b end.

Lemma converts_ok x m y m' xs :
  converts x m y m' → ok m (handles x ++ xs) → tok x →
  ok m' (handles y ++ xs) ∧ tok y ∧ frame m m' ∧ alloc_of y = alloc_of x ∧ bp_id y = bp_id x.
Proof.
  intros Hcv Hok Ht. destruct Hcv as [x m y m' H|b m y m' H|x m y m' H|x m y m' H|x m y m' H|x m y m' H|x m y m' H].
  - destruct x as [b|b c|b c|c|z]; try done. cbn in H. destruct (bpu_binned b m) as [[y1 m1]|] eqn:Hb; [|done].
    destruct Ht as [[t Hv] Hk]. assert (is_weak b = false) as Hw by (unfold is_weak; by rewrite Hv).
    destruct (bpu_binned_ok _ _ _ _ _ Hok Hw Hb) as (-> & Ho & Ht' & Hf). injection H as <- <-. split_and!; try done.
    cbn. by apply bin_unsized_ok.
  - destruct Ht as [[t Hv] Hk]. assert (is_weak b = false) as Hw by (unfold is_weak; by rewrite Hv).
    destruct (bpu_binned_ok _ _ _ _ _ Hok Hw H) as (-> & Ho & Ht' & Hf). split_and!; done.
  - destruct x as [b|b c|b c|c|z]; try done. injection H as <- <-. destruct Ht as (Hw & Hk & ->). split_and!; try done.
    cbn. by apply bin_unsized_ok.
  - destruct x as [b|b c|b c|c|z]; try done. cbn in H. destruct (can_unsized b m) as [[[y1 z1] m1]|] eqn:Hb; [|done].
    destruct Ht as (Hw & Hk & ->).
    destruct (can_unsized_ok _ _ _ _ _ _ Hok Hb) as (-> & -> & Ho & _ & Hk' & Hf).
    destruct (ptr_drop [from_bin b] m1) as [m2|] eqn:Hd; [|done]. injection H as <- <-.
    destruct (ptr_drop_inv [from_bin b] m1 (bin_unsized b :: from_bin b :: xs) m2) as [Ho2 Hf2]; [|done|].
    { eapply ok_perm; [|exact Ho]. cbn. etrans; [|apply perm_swap]. constructor. apply perm_swap. }
    split_and!; try done. by eapply frame_trans.
  - destruct x as [b|b c|b c|c|z]; try done. cbn in H. destruct (can_unsized b m) as [[[y1 z1] m1]|] eqn:Hb; [|done].
    destruct (can_unsized_ok _ _ _ _ _ _ Hok Hb) as (-> & -> & Ho & Hw & Hk' & Hf). injection H as <- <-.
    destruct Ht as [_ Hk]. split_and!; done.
  - destruct x as [b|b c|b c|c|z]; try done. cbn in H. destruct (can_unsized b m) as [[[y1 z1] m1]|] eqn:Hb; [|done].
    destruct (can_unsized_ok _ _ _ _ _ _ Hok Hb) as (-> & -> & Ho & Hw & Hk' & Hf). injection H as <- <-.
    destruct Ht as [_ Hk]. split_and!; done.
  - destruct x as [b|b c|b c|c|z]; try done. injection H as <- <-. destruct Ht as (Hw & Hk & ->). split_and!; done.
Qed.

Lemma thing_clone_ok x m y m' xs :
  thing_clone x m = Some (y, m') → ok m xs → (∀ h, h ∈ handles x → h ∈ xs) →
  y = x ∧ ok m' (handles x ++ xs) ∧ frame m m'.
Proof.
  intros Hc Hok Hin.

  destruct x as [b|b c|b c|b|b]; cbn in Hc.
  1,4,5: destruct (ptr_clone b m) as [[b' m1]|] eqn:Hb; [|done]; injection Hc as <- <-;
    destruct (clone_ok m xs b b' m1) as (-> & Ho & Hf & _); [done|apply refs_in, Hin; left|done|]; done.
  all: destruct (ptr_clone b m) as [[b' m1]|] eqn:Hb; [|done];
    destruct (ptr_clone c m1) as [[c' m2]|] eqn:Hc'; [|done]; injection Hc as <- <-;
    destruct (clone_ok m xs b b' m1) as (-> & Ho & Hf & _); [done|apply refs_in, Hin; left|done|];
    destruct (clone_ok m1 (b :: xs) c c' m2) as (-> & Ho2 & Hf2 & _); [done|apply refs_in; right; apply Hin; right; left|done|];
    (split_and!; [done|cbn; by apply ok_swap|by eapply frame_trans]).
Qed.

Lemma canned_ok x m c m' xs :
  bp_canned x m = Some (c, m') → ok m xs → (∀ h, h ∈ handles x → h ∈ xs) → tok x →
  ok m' (c :: xs) ∧ frame m m' ∧ (∃ t, h_view c = AsCan t) ∧ h_kind c ≠ PBox ∧ h_id c = alloc_of x ∧ bp_id x = Some (h_ptr c).
Proof.
  intros Hc Hok Hin Ht. destruct x as [b|b d|b d|b|b]; try done; cbn in Hc.
  - destruct (ptr_clone b m) as [[b' m1]|] eqn:Hb; [|done]; injection Hc as <- <-.
    destruct Ht as [[t Hv] Hk]. assert (is_weak b = false) as Hw by (unfold is_weak; by rewrite Hv).
    destruct (clone_ok m xs b b' m1) as (-> & Ho & Hf & _); [done|apply refs_in, Hin; left|done|].
    split_and!; try done; [by apply from_bin_ok|by eexists].
  - destruct (clone_ok m xs d c m') as (-> & Ho & Hf & _); [done|apply refs_in, Hin; right; left|done|].
    destruct Ht as (Hw & Hk & ->). split_and!; try done. by eexists.
  - destruct (clone_ok m xs d c m') as (-> & Ho & Hf & _); [done|apply refs_in, Hin; right; left|done|].
    destruct Ht as (Hw & Hk & ->). split_and!; try done. by eexists.
Qed.

Lemma art_from_bin_ok x m y m' xs :
  art_from_bin x m = Some (y, m') → ok m (handles x ++ xs) → tok x →
  ok m' (handles y ++ xs) ∧ tok y ∧ frame m m' ∧ alloc_of y = alloc_of x.
Proof.
  intros H Hok Ht.
  assert (match bp_canned x m with
    | Some (c, m) => match ptr_drop (handles x) m with Some m => Some (TArt c, m) | None => None end
    | None => None end = Some (y, m')) as H'.
  { destruct x as [b|[? [] ? ?] d|b d|b|b]; done. }
  clear H. destruct (bp_canned x m) as [[c m1]|] eqn:Hc; [|done]. destruct (ptr_drop (handles x) m1) as [m2|] eqn:Hd; [|done].
  injection H' as <- <-.
  destruct (canned_ok x m c m1 (handles x ++ xs) Hc Hok) as (Ho & Hf & Hv & Hk & Hi & _); [set_solver|done|].
  destruct (ptr_drop_inv (handles x) m1 (c :: xs) m2) as [Ho2 Hf2]; [|done|].
  { eapply ok_perm; [|exact Ho]. apply Permutation_middle. }
  split_and!; try done. by eapply frame_trans.
Qed.

Lemma downcast_inv t x y :
  downcast_can t x = Some y → y = Hnd (h_kind x) (AsBin t) (h_ptr x) (h_id x) ∧ h_ty x = t.
Proof. unfold downcast_can. destruct (N.eqb_spec (h_ty x) t); [|done]. by intros [= <-]. Qed.

Lemma wstep_ok w w' : wok w → wstep w w' → wok w' ∧ frame (mm w) (mm w').
Proof.
  intros [Hok Ht] Hs. destruct Hs as
    [k p t v ys pl m x m' Hn|k p t v ys pl m x m' Hk Hn|k p t v ys pl m x m' y z m'' Hn Hu
    |k p t v ys pl m x m' y m'' Hn Hu|k p t v ys pl m x m' y z m'' Hn Hu
    |x pl m y m' Hx Hc|x pl m m' Hd|x pl m y m' Hc|x pl m c m' Hx Hc|k t p i pl m|t k t' p i y pl m Hd
    |x pl m y m' Hx Hd|x pl m y m' Hx Hd|x pl m y m' Ha|t x pl m y Hd|t x pl m y m' Hd|k t p i pl m Hk|p b x pl m y m' Hb Hx Hc|pl pl' m Hp];
    unfold wok, held in *; cbn [mm pool] in *.
  1-5: rewrite bind_app in Hok; apply Forall_app in Ht as [_ Ht].
  1-5: destruct (ok_new _ _ _ _ _ _ _ _ _ Hok Hn) as (Ho & Hf & Hi & Hv & Hkx & Hp & _ & _).
  - split; [|done]. split; [done|]. by constructor.
  - split; [|done]. split; [done|]. constructor; [|done]. cbn. rewrite Hkx. eauto.
  - destruct (can_unsized_ok _ _ _ _ _ _ Ho Hu) as (-> & -> & Ho2 & Hw & Hk & Hf2).
    split; [|by eapply frame_trans]. split; [done|]. constructor; [|done]. cbn. by rewrite Hk.
  - assert (is_weak x = false) as Hw by (unfold is_weak; by rewrite Hv).
    destruct (bpu_binned_ok _ _ _ _ _ Ho Hw Hu) as (-> & Ho2 & Ht2 & Hf2).
    split; [|by eapply frame_trans]. split; [done|]. by constructor.
  - destruct (can_unsized_ok _ _ _ _ _ _ Ho Hu) as (-> & -> & Ho2 & Hw & Hk & Hf2).
    split; [|by eapply frame_trans]. split; [done|]. constructor; [|done]. cbn. by rewrite Hk.
  - destruct (thing_clone_ok _ _ _ _ _ Hc Hok) as (-> & Ho & Hf).
    { intros h Hh. apply elem_of_list_bind. eauto. }
    split; [|done]. split; [done|]. constructor; [|done]. by eapply Forall_forall in Hx.
  - apply Forall_cons in Ht as [_ Ht]. destruct (ptr_drop_inv _ _ _ _ Hok Hd) as [Ho Hf]. done.
  - apply Forall_cons in Ht as [Htx Ht]. destruct (converts_ok _ _ _ _ _ Hc Hok Htx) as (Ho & Hty & Hf & _).
    split; [|done]. split; [done|]. by constructor.
  - destruct (canned_ok _ _ _ _ _ Hc Hok) as (Ho & Hf & _).
    { intros h Hh. apply elem_of_list_bind. eauto. }
    { by eapply Forall_forall in Hx. }
    split; [|done]. split; [done|]. by constructor.
  - split; [|reflexivity]. apply Forall_cons in Ht as [_ Ht]. split; [|by constructor]. by apply from_bin_ok.
  - split; [|reflexivity]. apply Forall_cons in Ht as [_ Ht]. apply downcast_inv in Hd as [-> Hty].
    split; [|by constructor]. eapply ok_view; [..|exact Hok]; done.
  - assert (x ∈ pl ≫= handles) as Hin by (apply elem_of_list_bind; exists (TPtr x); split; [left|done]).
    unfold can_downgrade in Hd. destruct (ok_hnd _ _ Hok x (refs_in _ _ _ Hin)) as (b & Hb & Hi & Hty & Hk).
    rewrite Hb in Hd. destruct (h_view x) as [t|t|t|t] eqn:Hv; [by destruct (h_kind x)| |by destruct (h_kind x)..].
    assert (h_kind x ≠ PBox ∧ y = Hnd (h_kind x) (AsWeak t) (h_ptr x) (h_id x) ∧
      m' = put (h_ptr y) (Blk (k_id b) (k_kind b) (k_ty b) (k_val b) (k_owns b) (k_strong b) (S (k_weak b))) m) as (Hn & Hy & ->).
    { destruct (h_kind x); by simplify_eq. }
    assert (h_ty x = t) as Hxt by (unfold h_ty; by rewrite Hv).
    split; [|eapply frame_put; subst y; done]. split; [|by constructor]. cbn. subst y. eapply ok_add; cbn; try done. by rewrite Hty.
  - assert (x ∈ pl ≫= handles) as Hin by (apply elem_of_list_bind; exists (TPtr x); split; [left|done]).
    unfold can_upgrade in Hd. destruct (ok_hnd _ _ Hok x (refs_in _ _ _ Hin)) as (b & Hb & Hi & Hty & Hk).
    rewrite Hb in Hd. destruct (h_view x) as [t|t|t|t] eqn:Hv; try done.
    destruct (k_strong b) as [|n] eqn:Hn; [done|]. injection Hd as <- <-.
    assert (h_ty x = t) as Hxt by (unfold h_ty; by rewrite Hv).
    assert (h_kind x ≠ PBox) as Hnb.
    { intros Hbx. destruct (bo_box _ _ _ _ (ok_blk _ _ Hok _ _ Hb)) as [_ H0]; [congruence|].
      rewrite (bo_weak _ _ _ _ (ok_blk _ _ Hok _ _ Hb)) in H0.
      assert (0 < cw (h_ptr x) (refs m (pl ≫= handles))); [|lia]. apply cw_pos. exists x. split; [by apply refs_in|].
      split; [done|]. unfold is_weak. by rewrite Hv. }
    split; [|by eapply frame_put]. split; [|by constructor]. cbn.
    eapply (ok_add _ _ (Hnd (h_kind x) (AsCan t) (h_ptr x) (h_id x)) b); cbn; try done; [by rewrite Hty|by rewrite Hn|lia].
  - apply Forall_cons in Ht as [Htx Ht]. destruct (art_from_bin_ok _ _ _ _ _ Ha Hok Htx) as (Ho & Hty & Hf & _).
    split; [|done]. split; [done|]. by constructor.
  - split; [|reflexivity]. apply Forall_cons in Ht as [Htx Ht]. destruct x as [b|b c|b c|c|z]; try done. cbn in Hd.
    destruct (downcast_can t c) as [b|] eqn:Hdc; [|done]. injection Hd as <-. apply downcast_inv in Hdc as [-> Hty].
    destruct Htx as [[t' Hv] Hk]. split; [|constructor; [|done]; split; [by eexists|done]].
    eapply ok_view; [..|exact Hok]; cbn; try done. unfold is_weak. by rewrite Hv.
  - apply Forall_cons in Ht as [Htx Ht]. destruct x as [b|b c|b c|c|z]; try done. cbn in Hd.
    destruct (downcast_can t c) as [b|] eqn:Hdc; [|done]. apply downcast_inv in Hdc as [-> Hty].
    destruct Htx as [[t' Hv] Hk].
    destruct (bpu_binned_ok m (Hnd (h_kind c) (AsBin t) (h_ptr c) (h_id c)) y m' (pl ≫= handles)) as (-> & Ho & Ht2 & Hf); [|done|done|].
    { eapply ok_view; [..|exact Hok]; cbn; try done. unfold is_weak. by rewrite Hv. }
    split; [|done]. split; [done|]. by constructor.
  - split; [|reflexivity]. apply Forall_cons in Ht as [_ Ht]. split; [exact Hok|]. constructor; [|done]. cbn. eauto.
  - destruct (clone_ok m (pl ≫= handles) x y m') as (-> & Ho & Hf & _); [done| |done|].
    { unfold refs. apply elem_of_app. right. apply owned_in. eauto. }
    split; [|done]. split; [done|]. by constructor.
  - split; [|reflexivity]. split; [|by rewrite <- Hp]. eapply ok_perm; [|exact Hok]. by apply bind_perm.
Qed.

Lemma init_ok : wok init_world.
Proof.
  split; [|constructor]. split.
  - intros p b H. done.
  - intros x H. cbn in H. unfold refs in H. cbn in H. by apply elem_of_nil in H.
  - intros p q b c H. done.
Qed.
Lemma steps_ok w w' : wok w → rtc wstep w w' → wok w' ∧ frame (mm w) (mm w').
Proof.
  intros Hw H. revert Hw. induction H as [w|w1 w2 w3 H1 _ IH]; intros Hw; [split; [done|reflexivity]|].
  destruct (wstep_ok _ _ Hw H1) as [Hw2 Hf]. destruct (IH Hw2) as [Hw3 Hf3]. split; [done|by eapply frame_trans].
Qed.
Lemma wreach_ok w : wreach w → wok w.
Proof. intros H. by eapply steps_ok; [apply init_ok|]. Qed.
