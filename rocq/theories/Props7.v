(** C18 and C37: blueprints, cans, reference counts. *)
From Verif Require Import RcFacts.
From stdpp Require Import relations.

(** [x] is a blueprint (of any of the three kinds). *)
Definition blueprint (x : thing) : Prop := match x with TBp _ | TBpu _ _ | TDyn _ _ => True | _ => False end.
(** Both refer to the builder that was put into one and the same allocation. *)
Definition same_builder (x y : thing) : Prop := ∀ h h', h ∈ handles x → h' ∈ handles y → h_id h = h_id h'.

Lemma tok_alloc x : tok x → blueprint x → ∀ h, h ∈ handles x → h_id h = alloc_of x ∧ bp_id x = Some (h_ptr h).
Proof.
  destruct x as [b|b c|b c|c|z]; try done; cbn.
  - intros _ _ h ->%elem_of_list_singleton. done.
  - intros (_ & _ & ->) _ h Hh. apply elem_of_cons in Hh as [->| ->%elem_of_list_singleton]; done.
  - intros (_ & _ & ->) _ h Hh. apply elem_of_cons in Hh as [->| ->%elem_of_list_singleton]; done.
Qed.
Lemma handles_ne x : ∃ h, h ∈ handles x ∧ h_id h = alloc_of x.
Proof. destruct x; eexists; (split; [left|done]). Qed.
Lemma same_builder_alloc x y : tok x → tok y → blueprint x → blueprint y → same_builder x y ↔ alloc_of x = alloc_of y.
Proof.
  intros Hx Hy Bx By. split.
  - intros H. destruct (handles_ne x) as (h & Hh & <-). destruct (handles_ne y) as (h' & Hh' & <-). by apply H.
  - intros H h h' Hh Hh'. destruct (tok_alloc x Hx Bx h Hh) as [-> _]. by destruct (tok_alloc y Hy By h' Hh') as [-> _].
Qed.
Lemma alloc_ptr m xs h h' : ok m xs → h ∈ refs m xs → h' ∈ refs m xs → (h_id h = h_id h' ↔ h_ptr h = h_ptr h').
Proof.
  intros [B H I] Hh Hh'. destruct (H _ Hh) as (b & Hb & Hi & _). destruct (H _ Hh') as (b' & Hb' & Hi' & _).
  rewrite <- Hi, <- Hi'. split; [by apply I|]. intros Heq. rewrite Heq in Hb. congruence.
Qed.

(** ** C18 *)

(** Whatever blueprints were created, cloned, converted and dropped before: two
    blueprints that are held are equal, and have equal ids and hashes, exactly
    if they refer to the same builder. *)
Theorem C18_equal_iff_same_builder w x y :
  wreach w → x ∈ pool w → y ∈ pool w → blueprint x → blueprint y →
  (bp_eq x y = true ↔ same_builder x y) ∧ (bp_id x = bp_id y ↔ same_builder x y) ∧ (bp_hash x = bp_hash y ↔ same_builder x y).
Proof.
  intros Hr Hx Hy Bx By. destruct (wreach_ok w Hr) as [Hok Ht]. pose proof (proj1 (Forall_forall _ _) Ht) as Ht'.
  rewrite (same_builder_alloc x y (Ht' _ Hx) (Ht' _ Hy) Bx By).
  destruct (handles_ne x) as (h & Hh & Ha). destruct (handles_ne y) as (h' & Hh' & Ha').
  pose proof (alloc_ptr _ _ h h' Hok (refs_in _ _ _ (held_in _ _ _ Hx Hh)) (refs_in _ _ _ (held_in _ _ _ Hy Hh'))) as Hp.
  destruct (tok_alloc x (Ht' _ Hx) Bx h Hh) as [_ Hix]. destruct (tok_alloc y (Ht' _ Hy) By h' Hh') as [_ Hiy].
  unfold bp_eq, bp_hash. rewrite Hix, Hiy, <- Ha, <- Ha', Hp, N.eqb_eq. split_and!; [done|split; congruence..].
Qed.
Print Assumptions C18_equal_iff_same_builder.

(** The parts of a blueprint never get out of step: whatever is in it refers to
    one builder, whose address is the id. *)
Theorem C18_one_builder w x h h' :
  wreach w → x ∈ pool w → blueprint x → h ∈ handles x → h' ∈ handles x →
  h_id h = h_id h' ∧ bp_id x = Some (h_ptr h) ∧ ∃ b, heap (mm w) !! h_ptr h = Some b ∧ k_id b = h_id h ∧ k_ty b = h_ty h ∧ bp_builder x (mm w) = Some (k_val b).
Proof.
  intros Hr Hx Bx Hh Hh'. destruct (wreach_ok w Hr) as [Hok Ht]. pose proof (proj1 (Forall_forall _ _) Ht _ Hx) as Htx.
  destruct (tok_alloc x Htx Bx h Hh) as [Ha Hi]. destruct (tok_alloc x Htx Bx h' Hh') as [Ha' Hi'].
  destruct (ok_hnd _ _ Hok h) as (b & Hb & Hid & Hty & _); [by apply refs_in; eapply held_in|].
  split_and!; [congruence|done|]. exists b. split_and!; [done..|].
  destruct x as [c|c d|c d|c|c]; try done; cbn.
  - apply elem_of_list_singleton in Hh as ->. by rewrite Hb.
  - destruct Htx as (_ & _ & ->). apply elem_of_cons in Hh as [->| ->%elem_of_list_singleton]; [by rewrite Hb|]. cbn in Hb. by rewrite Hb.
  - destruct Htx as (_ & _ & ->). apply elem_of_cons in Hh as [->| ->%elem_of_list_singleton]; [by rewrite Hb|]. cbn in Hb. by rewrite Hb.
Qed.
Print Assumptions C18_one_builder.

Lemma frame_builder m xs m' xs' x y :
  ok m xs → ok m' xs' → frame m m' → tok x → tok y → blueprint x → blueprint y →
  (∀ h, h ∈ handles x → h ∈ xs) → (∀ h, h ∈ handles y → h ∈ xs') → alloc_of x = alloc_of y →
  bp_id y = bp_id x ∧ bp_builder y m' = bp_builder x m ∧ ∃ v, bp_builder x m = Some v.
Proof.
  intros Hok Hok' [_ Hf] Tx Ty Bx By Hx Hy Ha.
  assert (∀ z m xs, ok m xs → tok z → blueprint z → (∀ h, h ∈ handles z → h ∈ xs) →
    ∃ p b, heap m !! p = Some b ∧ k_id b = alloc_of z ∧ bp_id z = Some p ∧ bp_builder z m = Some (k_val b)) as Hg.
  { clear. intros z m xs Hok Tz Bz Hz. destruct z as [b|b c|b c|c|c]; try done.
    all: destruct (ok_hnd _ _ Hok b) as (k & Hk & Hi & _); [by apply refs_in, Hz; left|];
      exists (h_ptr b), k; cbn; rewrite Hk; split_and!; try done.
    - by destruct Tz as (_ & _ & ->).
    - by destruct Tz as (_ & _ & ->). }
  destruct (Hg x m xs Hok Tx Bx Hx) as (p & b & Hb & Hi & Hid & Hbl).
  destruct (Hg y m' xs' Hok' Ty By Hy) as (p' & b' & Hb' & Hi' & Hid' & Hbl').
  destruct (Hf p' b' Hb') as (b0 & Hb0 & (A1 & _ & _ & A4)).
  { rewrite Hi', <- Ha, <- Hi. apply (bo_id _ _ _ _ (ok_blk _ _ Hok _ _ Hb)). }
  assert (p' = p) as -> by (eapply (ok_ids _ _ Hok); [exact Hb0|exact Hb|congruence]).
  rewrite Hb in Hb0. injection Hb0 as <-. rewrite Hid, Hid', Hbl, Hbl', A4. split_and!; eauto.
Qed.

(** [clone] and all conversions preserve id and builder. *)
Theorem C18_clone w x y m' :
  wreach w → x ∈ pool w → blueprint x → thing_clone x (mm w) = Some (y, m') →
  blueprint y ∧ same_builder x y ∧ bp_id y = bp_id x ∧ bp_builder y m' = bp_builder x (mm w) ∧ bp_eq x y = true.
Proof.
  intros Hr Hx Bx Hc. destruct (wreach_ok w Hr) as [Hok Ht]. pose proof (proj1 (Forall_forall _ _) Ht _ Hx) as Htx.
  destruct (thing_clone_ok _ _ _ _ _ Hc Hok) as (-> & Ho & Hf); [intros h; by apply held_in|].
  destruct (frame_builder _ _ _ _ x x Hok Ho Hf) as (_ & Hb & _); try done; [intros h; by apply held_in|set_solver|].
  split_and!; try done; [by apply same_builder_alloc|]. destruct (handles_ne x) as (h & Hh & _).
  unfold bp_eq. rewrite (proj2 (tok_alloc x Htx Bx h Hh)). by apply N.eqb_refl.
Qed.
Print Assumptions C18_clone.
Theorem C18_convert w x y m' pl :
  wreach w → pool w = x :: pl → converts x (mm w) y m' →
  blueprint x ∧ blueprint y ∧ same_builder x y ∧ bp_id y = bp_id x ∧ bp_builder y m' = bp_builder x (mm w) ∧ bp_eq x y = true.
Proof.
  intros Hr Hp Hc. destruct (wreach_ok w Hr) as [Hok Ht]. rewrite Hp in Ht. apply Forall_cons in Ht as [Htx Ht].
  unfold held in Hok. rewrite Hp in Hok. cbn in Hok.
  assert (blueprint x ∧ blueprint y) as [Bx By].
  { destruct Hc as [x m y m' H|b m y m' H|x m y m' H|x m y m' H|x m y m' H|x m y m' H|x m y m' H]; (split; [first [exact I|by destruct x; cbn in H]|]).
    - destruct x; try done. cbn in H. unfold bpu_binned in H. destruct (ptr_clone _ _) as [[??]|]; [|done]. by simplify_eq/=.
    - cbn in H. unfold bpu_binned in H. destruct (ptr_clone _ _) as [[??]|]; [|done]. by simplify_eq/=.
    - destruct x; try done. by simplify_eq/=.
    - destruct x; try done. cbn in H. destruct (can_unsized _ _) as [[[??]?]|]; [|done]. destruct (ptr_drop _ _); by simplify_eq/=.
    - destruct x; try done. cbn in H. destruct (can_unsized _ _) as [[[??]?]|]; by simplify_eq/=.
    - destruct x; try done. cbn in H. destruct (can_unsized _ _) as [[[??]?]|]; by simplify_eq/=.
    - destruct x; try done. by simplify_eq/=. }
  destruct (converts_ok _ _ _ _ _ Hc Hok Htx) as (Ho & Hty & Hf & Ha & Hi).
  destruct (frame_builder _ _ _ _ x y Hok Ho Hf) as (_ & Hb & _); try done; [set_solver..|].
  split_and!; try done; [by apply same_builder_alloc|]. destruct (handles_ne x) as (h & Hh & _).
  unfold bp_eq. rewrite Hi, (proj2 (tok_alloc x Htx Bx h Hh)). by apply N.eqb_refl.
Qed.
Print Assumptions C18_convert.

(** Over any history: the builder behind a blueprint and its id stay the same,
    in all copies of the blueprint. *)
Theorem C18_builder_kept w w' x y :
  wreach w → rtc wstep w w' → x ∈ pool w → y ∈ pool w' → blueprint x → blueprint y → same_builder x y →
  bp_id y = bp_id x ∧ bp_builder y (mm w') = bp_builder x (mm w) ∧ ∃ v, bp_builder x (mm w) = Some v.
Proof.
  intros Hr Hs Hx Hy Bx By Hsb. pose proof (wreach_ok w Hr) as Hw. destruct (steps_ok _ _ Hw Hs) as [[Hok' Ht'] Hf].
  destruct Hw as [Hok Ht]. pose proof (proj1 (Forall_forall _ _) Ht _ Hx) as Tx. pose proof (proj1 (Forall_forall _ _) Ht' _ Hy) as Ty.
  apply (same_builder_alloc x y Tx Ty Bx By) in Hsb.
  apply (frame_builder _ _ _ _ x y Hok Hok' Hf); try done; intros h; by apply held_in.
Qed.
Print Assumptions C18_builder_kept.

(** A new builder gets an id that no blueprint, no can and no weak reference has
    (such as the ones the cache keeps), and it is the one that was put in. *)
Theorem C18_new_id w k p t v ys pl x m' :
  wreach w → pool w = ys ++ pl → ptr_new k p t v (ys ≫= handles) (mm w) = Some (x, m') →
  bp_id (TBp x) = Some p ∧ bp_builder (TBp x) m' = Some v ∧
  (∀ h, h ∈ held w → h_ptr h ≠ p) ∧ (∀ y, y ∈ pool w → blueprint y → bp_eq y (TBp x) = false ∧ ¬ same_builder y (TBp x)).
Proof.
  intros Hr Hp Hn. destruct (wreach_ok w Hr) as [Hok Ht].
  assert (ok (mm w) ((ys ≫= handles) ++ (pl ≫= handles))) as Hok2 by (unfold held in Hok; by rewrite Hp, bind_app in Hok).
  destruct (ok_new _ _ _ _ _ _ _ _ _ Hok2 Hn) as (Ho & Hf & Hi & Hv & Hkx & Hpx & Hfree & Hb).
  assert (∀ h, h ∈ held w → h_ptr h ≠ p) as Hne.
  { intros h Hh <-. destruct (ok_hnd _ _ Hok h) as (b & Hbb & _); [by apply refs_in|]. congruence. }
  split_and!; [cbn; by rewrite <- Hpx|cbn; by rewrite Hpx, Hb|done|].
  intros y Hy By. pose proof (proj1 (Forall_forall _ _) Ht _ Hy) as Ty. destruct (handles_ne y) as (h & Hh & Ha). split.
  - unfold bp_eq. rewrite (proj2 (tok_alloc y Ty By h Hh)). cbn. apply N.eqb_neq. unfold bin_as_ptr. rewrite Hpx. apply Hne. by eapply held_in.
  - intros Hsb. specialize (Hsb h x Hh). cbn in Hsb. rewrite Hi in Hsb.
    destruct (ok_hnd _ _ Hok h) as (b & Hbb & Hbi & _); [by apply refs_in; eapply held_in|].
    pose proof (bo_id _ _ _ _ (ok_blk _ _ Hok _ _ Hbb)). rewrite Hbi, Hsb in H; [lia|left].
Qed.
Print Assumptions C18_new_id.

(** Ids are also unique for zero-sized builders: an [Rc] allocation begins with
    the two counts, so the address of the content differs from the start of the
    allocation, is at most its end, and two disjoint allocations have different
    content addresses, whatever the alignments. *)
Theorem C18_zero_sized base size off base' size' off' :
  (0 < off ≤ size)%N → (0 < off' ≤ size')%N →
  (∀ a, base ≤ a < base + size → ¬ (base' ≤ a < base' + size'))%N →
  (base + off ≠ base' + off')%N.
Proof.
  intros H1 H2 Hd He. destruct (N.le_gt_cases base base') as [Hle|Hgt].
  - apply (Hd base'); lia.
  - apply (Hd base); lia.
Qed.
Print Assumptions C18_zero_sized.

(** ** C37 *)

(** Bin to can and back: the same bin for the right type, nothing for any other
    type; the addresses agree. *)
Theorem C37_round_trip k t p i t' :
  let x := Hnd k (AsBin t) p i in
  downcast_can t (from_bin x) = Some x ∧ (t' ≠ t → downcast_can t' (from_bin x) = None) ∧
  can_as_ptr (from_bin x) = bin_as_ptr x.
Proof.
  cbn. unfold downcast_can. cbn. rewrite N.eqb_refl. split_and!; [done| |done]. intros H. by destruct (N.eqb_spec t t').
Qed.
Print Assumptions C37_round_trip.

(** Whatever happened before: downcasting a can succeeds exactly for the type of
    the content, and gives the bin of that allocation, and the content. *)
Theorem C37_downcast w c t :
  wreach w → c ∈ held w → (∃ t', h_view c = AsCan t') →
  ∃ b, heap (mm w) !! can_as_ptr c = Some b ∧ 0 < k_strong b ∧
    match downcast_can t c with
    | Some x => k_ty b = t ∧ bin_as_ptr x = can_as_ptr c ∧ h_id x = h_id c ∧ from_bin x = c
    | None => k_ty b ≠ t
    end ∧ downcast_can_ref t c (mm w) = (if (k_ty b =? t)%N then Some (k_val b) else None).
Proof.
  intros Hr Hc [t' Hv]. destruct (wreach_ok w Hr) as [Hok _]. destruct (ok_hnd _ _ Hok c (refs_in _ _ _ Hc)) as (b & Hb & Hi & Hty & Hk).
  exists b. unfold can_as_ptr, downcast_can, downcast_can_ref. rewrite Hb. split_and!; [done| | |].
  - rewrite (bo_strong _ _ _ _ (ok_blk _ _ Hok _ _ Hb)). apply cs_pos. exists c. split; [by apply refs_in|].
    split; [done|]. unfold is_strong, is_weak. by rewrite Hv.
  - rewrite Hty. destruct (N.eqb_spec (h_ty c) t) as [<-|]; [|done]. split_and!; try done. destruct c as [k v p i]. cbn in *. subst v. done.
  - by rewrite Hty.
Qed.
Print Assumptions C37_downcast.

(** A pointer to an allocation exists: held, or owned by the content of one that
    is itself still there. *)
Definition strongly (w : world) (i : N) : Prop :=
  ∃ h, is_strong h = true ∧ h_id h = i ∧
    (h ∈ held w ∨ ∃ p b, heap (mm w) !! p = Some b ∧ 0 < k_strong b ∧ h ∈ k_owns b).

(** A weak reference upgrades exactly as long as a strong one is left, to a can
    of the same allocation. *)
Theorem C37_upgrade w x t :
  wreach w → x ∈ held w → h_view x = AsWeak t →
  ∃ r m', can_upgrade x (mm w) = Some (r, m') ∧
    match r with
    | Some y => strongly w (h_id x) ∧ h_id y = h_id x ∧ can_as_ptr y = h_ptr x ∧ h_view y = AsCan t ∧
        (∀ v, downcast_can_ref t y (mm w) = Some v → downcast_can_ref t y m' = Some v)
    | None => ¬ strongly w (h_id x)
    end.
Proof.
  intros Hr Hx Hv. destruct (wreach_ok w Hr) as [Hok _]. destruct (ok_hnd _ _ Hok x (refs_in _ _ _ Hx)) as (b & Hb & Hi & Hty & Hk).
  destruct (ok_blk _ _ Hok _ _ Hb) as [b1 b2 b3 b4 b5 b6 b7].
  assert (strongly w (h_id x) ↔ 0 < k_strong b) as Hst.
  { rewrite b1, cs_pos. split.
    - intros (h & Hs & Hid & Hin). assert (h ∈ refs (mm w) (held w)) as Hh.
      { destruct Hin as [Hh|(p & c & Hp & _ & Hh)]; [by apply refs_in|]. unfold refs. apply elem_of_app. right. apply owned_in. eauto. }
      exists h. split; [done|]. split; [|done]. by apply (alloc_ptr _ _ h x Hok Hh (refs_in _ _ _ Hx)).
    - intros (h & Hh & [Hp Hs]). exists h. split_and!; [done|by apply (alloc_ptr _ _ h x Hok Hh (refs_in _ _ _ Hx))|].
      unfold refs in Hh. apply elem_of_app in Hh as [Hh|Hh]; [by left|right]. apply owned_in in Hh as (q & c & Hq & Hc). exists q, c.
      split_and!; try done. destruct (k_strong c) eqn:E; [|lia]. rewrite (bo_dead _ _ _ _ (ok_blk _ _ Hok _ _ Hq) E) in Hc. by apply elem_of_nil in Hc. }
  unfold can_upgrade. rewrite Hv, Hb. destruct (k_strong b) as [|n].
  - eexists _, _. split; [done|]. cbn. rewrite Hst. lia.
  - eexists _, _. split; [done|]. cbn. split_and!; [apply Hst; lia|done..|]. intros v.
    unfold downcast_can_ref. cbn. rewrite Hb, lookup_insert. done.
Qed.
Print Assumptions C37_upgrade.

(** An allocation is reachable: the program holds a strong pointer to it, or the
    content of a reachable one owns one.  (A builder owns the blueprints it was
    constructed with.) *)
Inductive reachable_from (w : world) : N → Prop :=
| rf_held h : h ∈ held w → is_strong h = true → reachable_from w (h_id h)
| rf_owned p b h : heap (mm w) !! p = Some b → reachable_from w (k_id b) → h ∈ k_owns b → is_strong h = true → reachable_from w (h_id h).

(** A content lives exactly as long as it is reachable. *)
Theorem C37_lives_iff_reachable w p b :
  wreach w → heap (mm w) !! p = Some b → (0 < k_strong b ↔ reachable_from w (k_id b)).
Proof.
  intros Hr Hb. destruct (wreach_ok w Hr) as [Hok _].
  assert (∀ h, h ∈ refs (mm w) (held w) → is_strong h = true → ∃ c, heap (mm w) !! h_ptr h = Some c ∧ k_id c = h_id h ∧ 0 < k_strong c) as Hs.
  { intros h Hh Hst. destruct (ok_hnd _ _ Hok h Hh) as (c & Hc & Hi & _). exists c. split_and!; [done..|].
    rewrite (bo_strong _ _ _ _ (ok_blk _ _ Hok _ _ Hc)). apply cs_pos. by exists h. }
  split.
  - assert (∀ n p b, heap (mm w) !! p = Some b → N.to_nat (next (mm w)) - N.to_nat (k_id b) ≤ n → 0 < k_strong b → reachable_from w (k_id b)) as Hind.
    { clear p b Hb. induction n as [|n IH]; intros p b Hb Hn Hpos.
      { pose proof (bo_id _ _ _ _ (ok_blk _ _ Hok _ _ Hb)). lia. }
      rewrite (bo_strong _ _ _ _ (ok_blk _ _ Hok _ _ Hb)) in Hpos. apply cs_pos in Hpos as (h & Hh & [Hp Hst]).
      destruct (ok_hnd _ _ Hok h Hh) as (c & Hc & Hi & _). rewrite Hp, Hb in Hc. injection Hc as <-. rewrite Hi.
      unfold refs in Hh. apply elem_of_app in Hh as [Hh|Hh]; [by apply rf_held|].
      apply owned_in in Hh as (q & c & Hq & Hc). eapply rf_owned; [exact Hq| |exact Hc|done].
      destruct (ok_blk _ _ Hok _ _ Hq) as [c1 c2 c3 c4 c5 c6 c7].
      apply (IH q c Hq).
      - pose proof (c7 h Hc). lia.
      - destruct (k_strong c); [|lia]. rewrite c4 in Hc; [by apply elem_of_nil in Hc|done]. }
    by eapply Hind.
  - intros Hrf. remember (k_id b) as i eqn:Hi. revert p b Hb Hi.
    destruct Hrf as [h Hh Hst|q c h Hq _ Hin Hst]; intros p b Hb Hi.
    + destruct (Hs h (refs_in _ _ _ Hh) Hst) as (c & Hc & Hci & Hpos).
      assert (p = h_ptr h) as -> by (eapply (ok_ids _ _ Hok); [exact Hb|exact Hc|congruence]). congruence.
    + destruct (Hs h) as (d & Hd & Hdi & Hpos); [|done|].
      { unfold refs. apply elem_of_app. right. apply owned_in. eauto. }
      assert (p = h_ptr h) as -> by (eapply (ok_ids _ _ Hok); [exact Hb|exact Hd|congruence]). congruence.
Qed.
Print Assumptions C37_lives_iff_reachable.

(** Nothing leaks: when the program holds nothing any more, all is freed. *)
Theorem C37_no_leak w : wreach w → pool w = [] → heap (mm w) = ∅.
Proof.
  intros Hr Hp. destruct (wreach_ok w Hr) as [Hok _]. assert (held w = []) as Hh by (unfold held; by rewrite Hp).
  assert (∀ i, ¬ reachable_from w i) as Hn. { intros i H. induction H as [h H _|p b h _ _ IH _ _]; [|done]. rewrite Hh in H. by apply elem_of_nil in H. }
  apply map_empty. intros p. destruct (heap (mm w) !! p) as [b|] eqn:Hb; [exfalso|done].
  assert (∀ q c, heap (mm w) !! q = Some c → k_owns c = []) as Ho.
  { intros q c Hc. apply (bo_dead _ _ _ _ (ok_blk _ _ Hok _ _ Hc)). destruct (k_strong c) eqn:E; [done|].
    destruct (Hn (k_id c)). apply (C37_lives_iff_reachable w q c Hr Hc). lia. }
  assert (∀ h, h ∉ refs (mm w) (held w)) as He.
  { intros h Hin. unfold refs in Hin. rewrite Hh in Hin. cbn in Hin. apply owned_in in Hin as (q & c & Hc & Hx). rewrite (Ho q c Hc) in Hx. by apply elem_of_nil in Hx. }
  destruct (ok_blk _ _ Hok _ _ Hb) as [b1 b2 b3 _ _ _ _].
  assert (cs p (refs (mm w) (held w)) = 0) as C1.
  { destruct (cs p _) eqn:E; [done|]. destruct (proj1 (cs_pos p (refs (mm w) (held w)))) as (y & Hy & _); [lia|]. by destruct (He y). }
  assert (cw p (refs (mm w) (held w)) = 0) as C2.
  { destruct (cw p _) eqn:E; [done|]. destruct (proj1 (cw_pos p (refs (mm w) (held w)))) as (y & Hy & _); [lia|]. by destruct (He y). }
  lia.
Qed.
Print Assumptions C37_no_leak.

(** No operation on what is held meets a dangling pointer: everything can be
    dropped, everything but a box can be cloned, blueprints can be canned. *)
Theorem C37_safe w x pl :
  wreach w → pool w = x :: pl →
  (∃ m', ptr_drop (handles x) (mm w) = Some m' ∧ wreach (World m' pl)) ∧
  ((∀ h, h ∈ handles x → h_kind h ≠ PBox) → ∃ m', thing_clone x (mm w) = Some (x, m') ∧ wreach (World m' (x :: pool w))) ∧
  (blueprint x → ∃ c m', bp_canned x (mm w) = Some (c, m') ∧ h_id c = alloc_of x ∧ Some (can_as_ptr c) = bp_id x).
Proof.
  intros Hr Hp. destruct (wreach_ok w Hr) as [Hok Ht]. destruct w as [m pl']. cbn in Hp. subst pl'. unfold held in Hok. cbn in *.
  split_and!.
  - destruct (ptr_drop_ok _ _ _ Hok) as (m' & Hd & _). exists m'. split; [done|]. eapply rtc_r; [exact Hr|]. by constructor.
  - intros Hk. assert (∀ m xs h, ok m xs → h ∈ handles x → h ∈ xs → ∃ m', ptr_clone h m = Some (h, m')) as Hcl.
    { intros m0 xs h H0 Hh Hin. eapply clone_total; [exact H0|by apply refs_in|by apply Hk]. }
    assert (∃ m', thing_clone x m = Some (x, m')) as [m' Hc].
    { destruct x as [b|b c|b c|b|b]; cbn.
      1,4,5: destruct (Hcl _ _ b Hok) as [m1 H1]; [by left|set_solver|rewrite H1; eauto].
      all: destruct (Hcl _ _ b Hok) as [m1 H1]; [by left|set_solver|]; rewrite H1;
        destruct (clone_ok _ _ _ _ _ Hok (refs_in _ _ _ (elem_of_list_here _ _)) H1) as (_ & Ho1 & _);
        destruct (Hcl _ _ c Ho1) as [m2 H2]; [by right; left|set_solver|]; rewrite H2; eauto. }
    exists m'. split; [done|]. eapply rtc_r; [exact Hr|]. eapply w_clone; [left|done].
  - intros Bx. apply Forall_cons in Ht as [Tx _].
    assert (∃ c m', bp_canned x m = Some (c, m')) as (c & m' & Hc).
    { destruct x as [b|b c|b c|b|b]; try done; cbn.
      - destruct (clone_total _ _ b Hok) as [m1 ->]; [by apply refs_head|by destruct Tx|eauto].
      - destruct Tx as (_ & Tk & ->). destruct (clone_total _ _ (from_bin b) Hok) as [m1 ->]; [apply refs_in; set_solver|done|eauto].
      - destruct Tx as (_ & Tk & ->). destruct (clone_total _ _ (from_bin b) Hok) as [m1 ->]; [apply refs_in; set_solver|done|eauto]. }
    exists c, m'. destruct (canned_ok _ _ _ _ _ Hc Hok) as (_ & _ & _ & _ & Hi & Hid); [set_solver|done|]. done.
Qed.
Print Assumptions C37_safe.

(** A box has exactly one owner, so that mutable access through it is exclusive. *)
Theorem C37_box_unique w l1 x l2 y :
  wreach w → held w = l1 ++ x :: l2 → h_kind x = PBox → y ∈ l1 ++ l2 ++ owned (heap (mm w)) → h_ptr y ≠ h_ptr x.
Proof.
  intros Hr Hh Hk Hy Heq. destruct (wreach_ok w Hr) as [Hok _].
  assert (ok (mm w) (x :: l1 ++ l2)) as Ho. { eapply ok_perm; [|exact Hok]. rewrite Hh. symmetry. apply Permutation_middle. }
  destruct (ok_hnd _ _ Ho x (refs_head _ _ _)) as (b & Hb & _ & _ & Hkb). destruct (ok_blk _ _ Ho _ _ Hb) as [b1 b2 b3 b4 b5 b6 b7].
  destruct b6 as [B1 B2]; [congruence|]. unfold refs in b1, b2. cbn in b1, b2. rewrite cs_cons, N.eqb_refl in b1. rewrite cw_cons, N.eqb_refl in b2.
  rewrite <- app_assoc in b1, b2. assert (is_weak x = false) as Hwx by (destruct (is_weak x); [lia|done]). rewrite Hwx in *.
  destruct (is_weak y) eqn:Hw.
  - assert (0 < cw (h_ptr x) (l1 ++ l2 ++ owned (heap (mm w)))); [|lia]. apply cw_pos. exists y. done.
  - assert (0 < cs (h_ptr x) (l1 ++ l2 ++ owned (heap (mm w)))); [|lia]. apply cs_pos. exists y. split; [done|]. split; [done|]. unfold is_strong. by rewrite Hw.
Qed.
Print Assumptions C37_box_unique.

(** A blueprint as artifact ([BuilderArtifact]): canning it and downcasting it
    succeeds for the type of the builder only, and gives a blueprint of the same
    builder.  But the kind of the blueprint is forgotten: a [Blueprint] can be
    downcast to a [BlueprintUnsized], and the other way round, although these are
    different artifact types. *)
Theorem C37_builder_artifact w x pl y m' t :
  wreach w → pool w = x :: pl → art_from_bin x (mm w) = Some (y, m') →
  ∃ p b, bp_id x = Some p ∧ heap (mm w) !! p = Some b ∧
    (is_Some (art_downcast_bp t y) ↔ t = k_ty b) ∧ (is_Some (art_downcast_bpu t y m') ↔ t = k_ty b) ∧
    (∀ z, art_downcast_bp t y = Some z → blueprint z ∧ same_builder x z ∧ bp_id z = bp_id x ∧ bp_builder z m' = bp_builder x (mm w)) ∧
    (∀ z m'', art_downcast_bpu t y m' = Some (z, m'') →
       blueprint z ∧ same_builder x z ∧ bp_id z = bp_id x ∧ bp_builder z m'' = bp_builder x (mm w)).
Proof.
  intros Hr Hp Ha. destruct (wreach_ok w Hr) as [Hok Ht]. destruct w as [m pl']. cbn in Hp. subst pl'.
  unfold held in Hok. cbn in *. apply Forall_cons in Ht as [Tx Tp].
  destruct (art_from_bin_ok _ _ _ _ _ Ha Hok Tx) as (Ho & Ty & Hf & Hal).
  assert (blueprint x ∧ ∃ c, y = TArt c ∧ bp_id x = Some (h_ptr c)) as (Bx & c & -> & Hid).
  { assert (∀ H : match bp_canned x m with
      | Some (c, m) => match ptr_drop (handles x) m with Some m => Some (TArt c, m) | None => None end
      | None => None end = Some (y, m'), ∃ c, y = TArt c ∧ bp_id x = Some (h_ptr c)) as Hx.
    { intros H. destruct (bp_canned x m) as [[c m1]|] eqn:Hc; [|done]. destruct (ptr_drop (handles x) m1) as [m2|] eqn:Hd; [|done].
      injection H as <- <-. exists c. split; [done|].
      by destruct (canned_ok x m c m1 _ Hc Hok) as (_ & _ & _ & _ & _ & ?); [set_solver|done|]. }
    destruct x as [b|[? [] ? ?] d|b d|b|b]; try done; (split; [done|]); by apply Hx. }
  cbn in Hal, Ho. destruct Ty as [[tc Hv] Hk].
  destruct (handles_ne x) as (h & Hh & Hha). destruct (tok_alloc x Tx Bx h Hh) as [_ Hid2].
  destruct (ok_hnd _ _ Hok h) as (b & Hb & Hi & _). { apply refs_in. set_solver. }
  destruct (ok_hnd _ _ Ho c (refs_head _ _ _)) as (b' & Hb' & Hi' & Hty' & _).
  assert (h_ptr h = h_ptr c) as Hpc by congruence. rewrite Hpc in Hb.
  assert (k_ty b = h_ty c) as Htc.
  { destruct Hf as [_ Hf]. destruct (Hf _ _ Hb') as (b0 & Hb0 & (_ & _ & A3 & _)).
    - rewrite Hi', Hal, <- Hha, <- Hi. apply (bo_id _ _ _ _ (ok_blk _ _ Hok _ _ Hb)).
    - rewrite Hb in Hb0. injection Hb0 as <-. congruence. }
  assert (ok m' (Hnd (h_kind c) (AsBin (h_ty c)) (h_ptr c) (h_id c) :: (pl ≫= handles))) as Ho2.
  { eapply ok_view; [..|exact Ho]; cbn; try done. unfold is_weak. by rewrite Hv. }
  exists (h_ptr c), b. split; [done|]. split; [done|]. rewrite Htc.
  assert (∀ z m'' xs, ok m'' xs → frame m m'' → tok z → blueprint z → (∀ h, h ∈ handles z → h ∈ xs) → alloc_of z = h_id c →
    blueprint z ∧ same_builder x z ∧ bp_id z = bp_id x ∧ bp_builder z m'' = bp_builder x m) as Hg.
  { intros z m'' xs Hz Hfz Tz Bz Hin Haz. destruct (frame_builder _ _ _ _ x z Hok Hz Hfz) as (H1 & H2 & _); try done; [set_solver|congruence|].
    split_and!; try done. apply same_builder_alloc; try done. congruence. }
  cbn. unfold downcast_can. destruct (N.eqb_spec (h_ty c) t) as [<-|Hne].
  - destruct (clone_total _ _ _ Ho2 (refs_head _ _ _)) as [m2 Hcl]; [done|].
    pose proof (bpu_binned_ok m' (Hnd (h_kind c) (AsBin (h_ty c)) (h_ptr c) (h_id c))) as Hbb.
    split_and!.
    + split; [done|]. intros _. by eexists.
    + split; [done|]. intros _. unfold bpu_binned. rewrite Hcl. by eexists.
    + intros z [= <-]. apply (Hg _ m' _ Ho2); try done; [split; [by eexists|done]|set_solver].
    + intros z m'' Hz. destruct (Hbb _ _ _ Ho2 eq_refl Hz) as (-> & Ho3 & Tz & Hf3). cbn in Ho3.
      apply (Hg _ _ _ Ho3); try done; [by eapply frame_trans|set_solver].
  - split_and!; try done; (split; [intros [? [=]]|done]).
Qed.
Print Assumptions C37_builder_artifact.

(** ** A concrete history *)

(** A leaf builder with two blueprints of it, one converted to a [BlueprintDyn],
    a weak can of it, and a second builder that owns a blueprint of the first. *)
Definition leaf_ptr : hnd := Hnd PRc (AsBin 5) 100 0.
Definition top_ptr : hnd := Hnd PRc (AsBin 6) 200 1.
Definition leaf_blk (n k : nat) : blk := Blk 0 PRc 5 (VNum 1) [] n k.
Definition leaf_mem (n k : nat) : mem := Mem {[ 100%N := leaf_blk n k ]} 1.
Definition w_demo : world := World
  (Mem (<[ 200%N := Blk 1 PRc 6 (VNum 2) [leaf_ptr] 1 0 ]> {[ 100%N := leaf_blk 3 1 ]}) 2)
  [TBp top_ptr; TPtr (Hnd PRc (AsWeak 5) 100 0); TDyn (bin_unsized leaf_ptr) (from_bin leaf_ptr)].
Lemma demo_clone v n k : is_weak (Hnd PRc v 100 0) = false →
  ptr_clone (Hnd PRc v 100 0) (leaf_mem n k) = Some (Hnd PRc v 100 0, leaf_mem (S n) k).
Proof. intros H. unfold ptr_clone, leaf_mem, put. cbn [h_kind h_ptr heap next]. rewrite lookup_singleton, H. by rewrite insert_singleton. Qed.
Lemma demo_down t n k :
  can_downgrade (Hnd PRc (AsCan t) 100 0) (leaf_mem n k) = Some (Hnd PRc (AsWeak t) 100 0, leaf_mem n (S k)).
Proof. unfold can_downgrade, leaf_mem, put. cbn [h_kind h_view h_ptr heap next]. rewrite lookup_singleton. by rewrite insert_singleton. Qed.
Lemma demo_drop t n k : ptr_drop [Hnd PRc (AsCan t) 100 0] (leaf_mem (S (S n)) k) = Some (leaf_mem (S n) k).
Proof. unfold ptr_drop, leaf_mem. cbn [length Nat.add drop_loop h_ptr heap next]. rewrite lookup_singleton. cbn. unfold settle, put. cbn. by rewrite insert_singleton. Qed.
Lemma demo_reach : wreach w_demo.
Proof.
  unfold wreach, init_world.
  eapply rtc_l; [apply (w_bp_new PRc 100 5 (VNum 1) [] [] _ leaf_ptr (leaf_mem 1 0)); [done|]|].
  { unfold ptr_new. cbn. by rewrite lookup_empty. }
  eapply rtc_l; [eapply (w_clone (TBp leaf_ptr) _ _ (TBp leaf_ptr) (leaf_mem 2 0)); [left|]|].
  { unfold thing_clone, leaf_ptr. by rewrite demo_clone. }
  eapply rtc_l; [apply (w_convert (TBp leaf_ptr) _ _ (TDyn (bin_unsized leaf_ptr) (from_bin leaf_ptr)) (leaf_mem 3 0)), cv_from_bp|].
  { unfold dyn_from_bp, can_unsized, leaf_ptr. cbn [h_kind h_view]. by rewrite demo_clone. }
  eapply rtc_l; [eapply (w_canned (TBp leaf_ptr) _ _ (from_bin leaf_ptr) (leaf_mem 4 0)); [right; left|]|].
  { unfold bp_canned, leaf_ptr. by rewrite demo_clone. }
  eapply rtc_l; [eapply (w_downgrade (from_bin leaf_ptr) _ _ _ (leaf_mem 4 1)); [left|]|].
  { apply demo_down. }
  eapply rtc_l; [apply w_swap; apply perm_swap|].
  eapply rtc_l; [eapply (w_drop _ _ _ (leaf_mem 3 1)), demo_drop|].
  eapply rtc_l; [apply w_swap; etrans; [|apply perm_swap]; constructor; apply perm_swap|].
  eapply rtc_l; [eapply (w_bp_new PRc 200 6 (VNum 2) [TBp leaf_ptr] [_; _] _ top_ptr (mm w_demo)); [done|]|apply rtc_refl].
  unfold ptr_new, leaf_mem. cbn [heap next]. by rewrite lookup_singleton_ne.
Qed.

(** The theorems apply to it: the two blueprints held refer to different
    builders; the weak reference upgrades; the leaf is still reachable, from the
    [BlueprintDyn] and through the second builder. *)
Example demo_C18 : bp_eq (TBp top_ptr) (TDyn (bin_unsized leaf_ptr) (from_bin leaf_ptr)) = false ∧
  same_builder (TDyn (bin_unsized leaf_ptr) (from_bin leaf_ptr)) (TBp leaf_ptr).
Proof.
  split; [done|]. intros h h' Hh Hh'. cbn in *. apply elem_of_list_singleton in Hh' as ->.
  apply elem_of_cons in Hh as [->| ->%elem_of_list_singleton]; done.
Qed.
Example demo_not_same : ¬ same_builder (TBp top_ptr) (TDyn (bin_unsized leaf_ptr) (from_bin leaf_ptr)).
Proof.
  intros H. apply (C18_equal_iff_same_builder w_demo) in H; try done; [apply demo_reach|left|right; right; left].
Qed.
Example demo_upgrades : ∃ y m', can_upgrade (Hnd PRc (AsWeak 5) 100 0) (mm w_demo) = Some (Some y, m').
Proof.
  unfold can_upgrade, w_demo. cbn [mm h_view h_ptr heap]. rewrite lookup_insert_ne, lookup_singleton by done. cbn. eauto.
Qed.
Example demo_owned : reachable_from (World (mm w_demo) [TBp top_ptr]) 0.
Proof.
  eapply (rf_owned _ 200 (Blk 1 PRc 6 (VNum 2) [leaf_ptr] 1 0) leaf_ptr); [apply lookup_insert|cbn|left|done].
  apply (rf_held _ top_ptr); [left|done].
Qed.
(** After dropping the weak can and the [BlueprintDyn], only the second builder
    keeps the leaf; after dropping its blueprint too, nothing is left. *)
Example demo_all_dropped : ∃ m, wreach (World m []) ∧ heap m = ∅.
Proof.
  destruct (C37_safe w_demo _ _ demo_reach eq_refl) as [(m1 & _ & H1) _].
  destruct (C37_safe _ _ _ H1 eq_refl) as [(m2 & _ & H2) _].
  destruct (C37_safe _ _ _ H2 eq_refl) as [(m3 & _ & H3) _].
  exists m3. split; [done|]. exact (C37_no_leak _ H3 eq_refl).
Qed.
(** A blueprint put into a [BuilderArtifact] can be taken out as the other kind of
    blueprint. *)
Example demo_artifact : ∃ w y m' z m'', wreach w ∧ pool w = [TBp leaf_ptr] ∧
  art_from_bin (TBp leaf_ptr) (mm w) = Some (y, m') ∧ art_downcast_bpu 5 y m' = Some (z, m'') ∧ art_downcast_bp 6 y = None.
Proof.
  exists (World (leaf_mem 1 0) [TBp leaf_ptr]), (TArt (from_bin leaf_ptr)), (leaf_mem 1 0), (TBpu leaf_ptr (from_bin leaf_ptr)), (leaf_mem 2 0).
  split_and!; try done.
  - eapply rtc_l; [apply (w_bp_new PRc 100 5 (VNum 1) [] [] _ leaf_ptr (leaf_mem 1 0)); [done|]|apply rtc_refl].
    unfold ptr_new. cbn. by rewrite lookup_empty.
  - unfold art_from_bin, bp_canned, leaf_ptr. cbn [mm]. rewrite demo_clone by done. cbn [handles].
    unfold ptr_drop, leaf_mem. cbn [length Nat.add drop_loop h_ptr heap next]. rewrite lookup_singleton. cbn. unfold settle, put. cbn. by rewrite insert_singleton.
  - unfold art_downcast_bpu, downcast_can, bpu_binned, leaf_ptr. cbn. by rewrite (demo_clone (AsBin 5)).
Qed.
