(** C54: the bundled doctors with an output that fails. *)
From Verif Require Import DocFail DotSpec DocFacts Props8.
From Coq Require Import String.
Local Notation length := List.length.
Local Notation concat := List.concat.

Section Facts.
Context (fail : nat → option nat) (pr : N → bool).

Lemma reported_snoc l r e b : length l = length r → reported (l ++ [e]) (r ++ [b]) = reported l r ++ (if b then [e] else []).
Proof.
  revert r. induction l as [|x l IH]; intros [|y r] H; cbn in *; try lia.
  - by destruct b.
  - rewrite IH by lia. by destruct y.
Qed.

(** One report: it writes a prefix of its text, all of it if it succeeds, and counts
    only if it succeeds. *)
Lemma take_pre k (t u : text) : take k t `prefix_of` t ++ u.
Proof. exists (drop k t ++ u). by rewrite app_assoc, take_drop. Qed.
Lemma take_pre' k (t : text) : take k t `prefix_of` t.
Proof. exists (drop k t). by rewrite take_drop. Qed.

Definition vx_outcome o w past e (x : wres vdocx) : Prop :=
  ∃ t m, t `prefix_of` event_text pr o (past, e) ∧
    (x = WOk (VDocX o (Some (Dev (w ++ t) m)) (generation (past ++ [e]), instance_no (past ++ [e]))) ∧ t = event_text pr o (past, e)
     ∨ x = WPanic (VDocX o (Some (Dev (w ++ t) m)) (generation past, instance_no past))).
Lemma vx_event_ok o w n past e :
  vx_outcome o w past e (vx_event fail pr e (VDocX o (Some (Dev w n)) (generation past, instance_no past))).
Proof.
  unfold vx_outcome. rewrite generation_snoc, instance_snoc.
  destruct e as [b u|b a| |b]; cbn [vx_event resets is_build event_text fst snd];
    unfold vx_resolve, vx_build, vx_clear, vx_flush, vx_writeln, vx_write, dev_write, vx_plain.
  3,4: exists [], n; split; [done|]; left; cbn; by rewrite app_nil_r.
  - cbn [vx_output vx_opts vx_count wbind dv_text dv_ops].
    destruct (fail n) as [k|]; cbn [vx_output vx_opts vx_count wbind dv_text dv_ops].
    { eexists _, _. split; [|right; reflexivity]. rewrite app_assoc. apply take_pre. }
    destruct (fail (S n)) as [k|]; cbn [vx_output vx_opts vx_count wbind dv_text dv_ops].
    { rewrite <- app_assoc. eexists _, _. split; [|right; reflexivity]. rewrite <- app_assoc. repeat apply prefix_app. rewrite app_assoc. apply take_pre. }
    destruct (fail (S (S n))) as [k|]; cbn [vx_output vx_opts vx_count wbind dv_text dv_ops].
    { rewrite <- !app_assoc. eexists _, _. split; [|right; reflexivity]. repeat apply prefix_app. apply take_pre'. }
    rewrite <- !app_assoc.
    destruct (fail (S (S (S n)))) as [k|]; cbn [vx_output vx_opts vx_count wbind dv_text dv_ops];
      rewrite ?take_nil, ?app_nil_r; eexists _, _; (split; [|first [right; reflexivity|left; split; reflexivity]]); done.
  - cbn [vx_output vx_opts vx_count wbind dv_text dv_ops].
    destruct (fail n) as [k|]; cbn [vx_output vx_opts vx_count wbind dv_text dv_ops].
    { eexists _, _. split; [|right; reflexivity]. rewrite app_assoc. apply take_pre. }
    destruct (fail (S n)) as [k|]; cbn [vx_output vx_opts vx_count wbind dv_text dv_ops].
    { rewrite <- app_assoc. eexists _, _. split; [|right; reflexivity]. rewrite <- app_assoc. repeat apply prefix_app. rewrite app_assoc. apply take_pre. }
    destruct (fail (S (S n))) as [k|]; cbn [vx_output vx_opts vx_count wbind dv_text dv_ops].
    { rewrite <- !app_assoc. eexists _, _. split; [|right; reflexivity]. repeat apply prefix_app. apply take_pre'. }
    rewrite <- !app_assoc.
    destruct (fail (S (S (S n)))) as [k|]; cbn [vx_output vx_opts vx_count wbind dv_text dv_ops fst snd];
      rewrite ?take_nil, ?app_nil_r; eexists _, _; (split; [|first [right; reflexivity|left; split; reflexivity]]); done.
Qed.

Definition line_of (o : topts) (past : list devent) (e : devent) : text :=
  event_line o (past, e) ++ (if is_invalidate e then [] else [10%N]).
Definition tx_outcome o w past e (x : wres tdocx) : Prop :=
  ∃ t m, t `prefix_of` line_of o past e ∧
    (x = WOk (TDocX o (Dev (w ++ t) m) (generation (past ++ [e]), instance_no (past ++ [e]))) ∧ t = line_of o past e
     ∨ x = WPanic (TDocX o (Dev (w ++ t) m) (generation past, instance_no past))).
Lemma tx_event_ok o w n past e :
  tx_outcome o w past e (tx_event fail e (TDocX o (Dev w n) (generation past, instance_no past))).
Proof.
  unfold tx_outcome. rewrite generation_snoc, instance_snoc.
  set (c := (generation past, instance_no past)).
  destruct e as [b u|b a| |b]; cbn [tx_event resets is_build].
  - assert (tx_event fail (DResolve b u) (TDocX o (Dev w n) c) = tx_write fail (line_of o past (DResolve b u)) (TDocX o (Dev w n) c)) as Hx.
    { cbn [tx_event]. unfold line_of, tx_resolve, tx_writeln, tx_bs, tx_plain, td_builder_str. cbn [event_line is_invalidate fst snd tx_opts td_opts].
      unfold name_text, addr_text. destruct (to_addresses o); f_equal; rewrite <- ?app_assoc; done. }
    cbn [tx_event] in Hx. rewrite Hx. unfold tx_write, dev_write. cbn [tx_output tx_opts tx_count dv_text dv_ops].
    destruct (fail n) as [k|]; eexists _, _; (split; [|first [right; reflexivity|left; split; reflexivity]]); [apply take_pre'|done].
  - assert (∃ t1 t2, line_of o past (DBuild b a) = t1 ++ t2 ∧ tx_build fail b a (TDocX o (Dev w n) c) =
      wbind (tx_write fail t1 (TDocX o (Dev w n) c)) (λ d, wbind (tx_write fail t2 (TDocX o (tx_output d) c)) (λ d,
        wbind (tx_write fail [] d) (λ d, WOk (TDocX (tx_opts d) (tx_output d) ((tx_count d).1, (tx_count d).2 + 1)%N))))) as (t1 & t2 & Ht & Hx).
    { unfold tx_build. cbn [tx_opts tx_count].
      exists (if to_addresses o then lit "built #" ++ fmt_num c.1 ++ lit "." ++ fmt_num c.2 ++ lit " [" ++ fmt_ptr (bh_id b) ++ lit "] " ++
                tx_bs (TDocX o (Dev w n) c) b ++ lit " => [" ++ fmt_ptr (ah_ptr a) ++ lit "] "
              else lit "built #" ++ fmt_num c.1 ++ lit "." ++ fmt_num c.2 ++ lit "  " ++ tx_bs (TDocX o (Dev w n) c) b ++ lit " => "),
        ((if to_artifact_values o then ah_dbg a else to_tynm o (ah_type a)) ++ [10%N]).
      split.
      - unfold line_of, tx_bs, tx_plain, td_builder_str, c. cbn [event_line is_invalidate fst snd tx_opts td_opts].
        unfold name_text, addr_text. destruct (to_addresses o), (to_artifact_values o); rewrite <- ?app_assoc; done.
      - unfold tx_writeln, tx_write, dev_write. cbn [tx_output dv_ops tx_opts tx_count dv_text].
        destruct (to_addresses o), (fail n); cbn [wbind tx_opts tx_output]; [done| |done|]; by destruct (to_artifact_values o). }
    rewrite Hx, Ht. unfold tx_write, dev_write. cbn [tx_output tx_opts tx_count dv_text dv_ops].
    destruct (fail n) as [k|]; cbn [wbind tx_output tx_opts tx_count dv_text dv_ops].
    { eexists _, _. split; [|right; reflexivity]. apply take_pre. }
    destruct (fail (S n)) as [k|]; cbn [wbind tx_output tx_opts tx_count dv_text dv_ops].
    { rewrite <- app_assoc. eexists _, _. split; [|right; reflexivity]. apply prefix_app, take_pre'. }
    rewrite <- app_assoc.
    destruct (fail (S (S n))) as [k|]; cbn [wbind tx_output tx_opts tx_count dv_text dv_ops];
      rewrite ?take_nil, ?app_nil_r; eexists _, _; (split; [|first [right; reflexivity|left; split; reflexivity]]); done.
  - unfold tx_clear, tx_writeln, tx_write, dev_write. cbn [tx_output tx_opts tx_count dv_text dv_ops].
    destruct (fail n) as [k|]; cbn [wbind tx_output tx_opts tx_count dv_text dv_ops];
      eexists _, _; (split; [|first [right; reflexivity|left; split; [reflexivity|]]]); unfold line_of; cbn [event_line is_invalidate fst snd];
      rewrite <- ?app_assoc; first [apply take_pre'|done].
  - assert (∃ t1 t2, line_of o past (DInvalidate b) = t1 ++ t2 ∧ tx_invalidate fail b (TDocX o (Dev w n) c) =
      wbind (tx_write fail t1 (TDocX o (Dev w n) c)) (λ d, wbind (tx_write fail t2 (TDocX o (tx_output d) c)) (λ d,
        WOk (TDocX (tx_opts d) (tx_output d) ((tx_count d).1 + 1, 0)%N)))) as (t1 & t2 & Ht & Hx).
    { unfold tx_invalidate. cbn [tx_opts tx_count].
      eexists _, (if to_addresses o then lit "[" ++ fmt_ptr (bh_id b) ++ lit "] " ++ tx_bs (TDocX o (Dev w n) c) b else tx_bs (TDocX o (Dev w n) c) b).
      split; [|].
      2: { unfold tx_write, dev_write. cbn [tx_output dv_ops tx_opts tx_count dv_text].
           destruct (fail n); cbn [wbind tx_opts tx_output]; [reflexivity|]. by destruct (to_addresses o). }
      unfold line_of, tx_bs, tx_plain, td_builder_str. cbn [event_line is_invalidate fst snd tx_opts td_opts].
      unfold name_text, addr_text. destruct (to_addresses o); rewrite <- ?app_assoc, ?app_nil_r; done. }
    rewrite Hx, Ht. unfold tx_write, dev_write. cbn [tx_output tx_opts tx_count dv_text dv_ops].
    destruct (fail n) as [k|]; cbn [wbind tx_output tx_opts tx_count dv_text dv_ops].
    { eexists _, _. split; [|right; reflexivity]. apply take_pre. }
    destruct (fail (S n)) as [k|]; cbn [wbind tx_output tx_opts tx_count dv_text dv_ops fst snd]; rewrite <- app_assoc.
    { eexists _, _. split; [|right; reflexivity]. apply prefix_app, take_pre'. }
    eexists _, _. split; [|left; split; reflexivity]. done.
Qed.
End Facts.

(** ** The statements *)

Lemma vx_events_snoc fail pr l e d : vx_events fail pr (l ++ [e]) d =
  let y := vx_events fail pr l d in let x := vx_event fail pr e y.2 in (y.1 ++ [wok x], wval x).
Proof. revert d. induction l as [|x l IH]; intros d; cbn; [done|]. by rewrite IH. Qed.
Lemma tx_events_snoc fail l e d : tx_events fail (l ++ [e]) d =
  let y := tx_events fail l d in let x := tx_event fail e y.2 in (y.1 ++ [wok x], wval x).
Proof. revert d. induction l as [|x l IH]; intros d; cbn; [done|]. by rewrite IH. Qed.
Lemma reported_length l r : length (reported l r) ≤ length l.
Proof. revert r. induction l as [|x l IH]; intros [|[] r]; cbn; try lia; specialize (IH r); lia. Qed.

Lemma with_past_app past l e : with_past past (l ++ [e]) = with_past past l ++ [(past ++ l, e)].
Proof. revert past. induction l as [|x l IH]; intros past; cbn; [by rewrite app_nil_r|]. rewrite IH. by rewrite <- app_assoc. Qed.
Lemma vd_says_text pr o past e : vd_says pr o past e (event_text pr o (past, e)).
Proof.
  unfold vd_says. change (vd_new o []) with (VDoc o (Some header) (generation [], instance_no [])).
  pose proof (events_out pr o past [] header) as H1. pose proof (events_out pr o (past ++ [e]) [] header) as H2. cbn zeta in H1, H2.
  do 3 eexists. split; [exact H1|]. split; [exact H2|]. split; [reflexivity|]. cbn [vd_output]. f_equal.
  rewrite <- app_assoc. f_equal. rewrite with_past_app. cbn [app]. rewrite bind_app. cbn [with_past mbind list_bind]. by rewrite app_nil_r.
Qed.
Lemma vd_says_det pr o past e t t' : vd_says pr o past e t → vd_says pr o past e t' → t = t'.
Proof. intros (x & y & w & H1 & H2 & H3 & H4) (x' & y' & w' & H1' & H2' & H3' & H4'). rewrite H1 in H1'. rewrite H2 in H2'. injection H1' as <-. injection H2' as <-.
  rewrite H3 in H3'. injection H3' as <-. rewrite H4 in H4'. injection H4' as H. by apply (inj (app w)) in H. Qed.
Lemma td_says_text o past e : td_says o past e (line_of o past e).
Proof.
  unfold td_says. rewrite !C36_text_document, with_past_app, bind_app. cbn [app with_past mbind list_bind]. by rewrite app_nil_r.
Qed.

Lemma pieced_nil says : pieced says [] [] [].
Proof. split; [done|]. split; [done|]. intros i e b p H. by rewrite lookup_nil in H. Qed.
Lemma pieced_snoc says l r ps e b (p t : text) : pieced says l r ps →
  says (reported l r) e t → p `prefix_of` t → (b = true → p = t) → pieced says (l ++ [e]) (r ++ [b]) (ps ++ [p]).
Proof.
  intros (Hr & Hp & H) Hs Hpre Hb. split; [rewrite !app_length; cbn; lia|]. split; [rewrite !app_length; cbn; lia|].
  intros i e' b' p' He Hb' Hp'. destruct (decide (i < length l)) as [Hlt|Hge].
  - rewrite lookup_app_l in He by lia. rewrite lookup_app_l in Hb' by lia. rewrite lookup_app_l in Hp' by lia. rewrite !take_app_le by lia. by apply (H i e' b' p').
  - assert (i = length l) as ->.
    { apply lookup_lt_Some in He. rewrite app_length in He. cbn in He. lia. }
    rewrite list_lookup_middle in He by done. rewrite list_lookup_middle in Hb' by done. rewrite list_lookup_middle in Hp' by done. simplify_eq.
    rewrite !take_app_alt by done. by exists t.
Qed.

Lemma vx_run fail pr o w n l : let y := vx_events fail pr l (VDocX o (Some (Dev w n)) (0%N, 0%N)) in
  ∃ ps m, pieced (vd_says pr o) l y.1 ps ∧
    y.2 = VDocX o (Some (Dev (w ++ concat ps) m)) (generation (reported l y.1), instance_no (reported l y.1)).
Proof.
  induction l as [|e l IH] using rev_ind; intros y.
  - exists [], n. split; [apply pieced_nil|]. cbn. by rewrite app_nil_r.
  - destruct IH as (ps & m & Hp & Hy). subst y. rewrite vx_events_snoc. cbn zeta. cbn [fst snd].
    set (y := vx_events fail pr l _) in *. rewrite Hy.
    destruct (vx_event_ok fail pr o (w ++ concat ps) m (reported l y.1) e) as (t & m' & Hpre & [[-> ->]| ->]); cbn [wok wval].
    + exists (ps ++ [event_text pr o (reported l y.1, e)]), m'. split.
      * eapply pieced_snoc; [exact Hp|apply vd_says_text|done|done].
      * rewrite reported_snoc by (symmetry; apply Hp). rewrite concat_app. cbn [concat]. by rewrite app_nil_r, app_assoc.
    + exists (ps ++ [t]), m'. split.
      * eapply pieced_snoc; [exact Hp|apply vd_says_text|done|done].
      * rewrite reported_snoc by (symmetry; apply Hp). rewrite concat_app. cbn [concat]. by rewrite !app_nil_r, app_assoc.
Qed.
Lemma tx_run fail o w n l : let y := tx_events fail l (TDocX o (Dev w n) (0%N, 0%N)) in
  ∃ ps m, pieced (td_says o) l y.1 ps ∧
    y.2 = TDocX o (Dev (w ++ concat ps) m) (generation (reported l y.1), instance_no (reported l y.1)).
Proof.
  induction l as [|e l IH] using rev_ind; intros y.
  - exists [], n. split; [apply pieced_nil|]. cbn. by rewrite app_nil_r.
  - destruct IH as (ps & m & Hp & Hy). subst y. rewrite tx_events_snoc. cbn zeta. cbn [fst snd].
    set (y := tx_events fail l _) in *. rewrite Hy.
    destruct (tx_event_ok fail o (w ++ concat ps) m (reported l y.1) e) as (t & m' & Hpre & [[-> ->]| ->]); cbn [wok wval].
    + exists (ps ++ [line_of o (reported l y.1) e]), m'. split.
      * eapply pieced_snoc; [exact Hp|apply td_says_text|done|done].
      * rewrite reported_snoc by (symmetry; apply Hp). rewrite concat_app. cbn [concat]. by rewrite app_nil_r, app_assoc.
    + exists (ps ++ [t]), m'. split.
      * eapply pieced_snoc; [exact Hp|apply td_says_text|done|done].
      * rewrite reported_snoc by (symmetry; apply Hp). rewrite concat_app. cbn [concat]. by rewrite !app_nil_r, app_assoc.
Qed.

(** Each event leaves a beginning of what a doctor with a reliable output would have
    written about it had it been told only the events reported before, and all of that
    if reporting it did not panic. *)
Theorem C54_visgraph fail pr o w n l d r d' :
  vx_new fail o (Dev w n) = Some d → vx_events fail pr l d = (r, d') →
  ∃ ps m, pieced (vd_says pr o) l r ps ∧ vx_output d' = Some (Dev (w ++ header ++ concat ps) m).
Proof.
  unfold vx_new, dev_write. cbn [dv_ops dv_text]. intros Hn Hr. destruct (fail n); [done|]. simplify_eq.
  destruct (vx_run fail pr o (w ++ header) (S n) l) as (ps & m & Hp & Hy). unfold header in Hp, Hy. rewrite Hr in Hp, Hy. cbn [fst snd] in *.
  exists ps, m. split; [done|]. rewrite Hy. cbn [vx_output]. by rewrite <- app_assoc.
Qed.
Print Assumptions C54_visgraph.
Theorem C54_textual fail o w n l r d' :
  tx_events fail l (tx_new o (Dev w n)) = (r, d') →
  ∃ ps m, pieced (td_says o) l r ps ∧ tx_output d' = Dev (w ++ concat ps) m.
Proof.
  intros Hr. destruct (tx_run fail o w n l) as (ps & m & Hp & Hy). change (TDocX o (Dev w n) (0%N, 0%N)) with (tx_new o (Dev w n)) in *.
  rewrite Hr in Hp, Hy. cbn [fst snd] in *. exists ps, m. split; [done|]. by rewrite Hy.
Qed.
Print Assumptions C54_textual.
(** The text a reliable doctor writes about an event is determined. *)
Theorem C54_says_unique pr o o' past e :
  (exists! t, vd_says pr o past e t) ∧ (exists! t, td_says o' past e t).
Proof.
  split.
  - exists (event_text pr o (past, e)). split; [apply vd_says_text|]. intros t' H. eapply vd_says_det; [apply vd_says_text|exact H].
  - exists (line_of o' past e). split; [apply td_says_text|]. intros t' H. pose proof (td_says_text o' past e) as H'. unfold td_says in *.
    rewrite H in H'. by apply (inj (app _)) in H'.
Qed.
Print Assumptions C54_says_unique.

(** So up to the first panic the output is that of a reliable doctor. *)
Lemma reported_all l : reported l (replicate (length l) true) = l.
Proof. induction l as [|e l IH]; cbn; [done|]. by rewrite IH. Qed.
Lemma pieced_all pr o l ps : pieced (vd_says pr o) l (replicate (length l) true) ps →
  concat ps = with_past [] l ≫= event_text pr o.
Proof.
  revert ps. induction l as [|e l IH] using rev_ind; intros ps (_ & Hl & H).
  - by destruct ps.
  - destruct ps as [|p ps _] using rev_ind; [rewrite app_length in Hl; cbn in Hl; lia|]. rewrite !app_length in Hl. cbn in Hl.
    rewrite concat_app, with_past_app, bind_app. cbn [concat mbind list_bind]. rewrite !app_nil_r.
    rewrite app_length in H. cbn in H. rewrite replicate_add in H. cbn [replicate] in H. f_equal.
    + apply IH. split; [by rewrite replicate_length|]. split; [lia|]. intros i e' b p' He Hb Hp.
      pose proof (lookup_lt_Some _ _ _ He) as Hi.
      destruct (H i e' b p') as (t & Ht & Hr). { by rewrite lookup_app_l. } { rewrite lookup_app_l by (rewrite replicate_length; lia). done. } { rewrite lookup_app_l by lia. done. }
      rewrite !take_app_le in Ht by (rewrite ?replicate_length; lia). by exists t.
    + destruct (H (length l) e true p) as (t & Ht & Hpre & Hr).
      { by rewrite list_lookup_middle. } { rewrite list_lookup_middle; [done|]. by rewrite replicate_length. } { rewrite list_lookup_middle; [done|]. lia. }
      rewrite !take_app_alt in Ht by (rewrite ?replicate_length; done). rewrite reported_all in Ht.
      rewrite (Hr eq_refl). eapply vd_says_det; [exact Ht|apply vd_says_text].
Qed.
Lemma pieced_all_t o l ps : pieced (td_says o) l (replicate (length l) true) ps → concat ps = td_document o l.
Proof.
  revert ps. induction l as [|e l IH] using rev_ind; intros ps (_ & Hl & H).
  - by destruct ps.
  - destruct ps as [|p ps _] using rev_ind; [rewrite app_length in Hl; cbn in Hl; lia|]. rewrite !app_length in Hl. cbn in Hl.
    rewrite concat_app. cbn [concat]. rewrite app_nil_r.
    rewrite app_length in H. cbn in H. rewrite replicate_add in H. cbn [replicate] in H.
    rewrite (IH ps).
    + destruct (H (length l) e true p) as (t & Ht & Hpre & Hr).
      { by rewrite list_lookup_middle. } { rewrite list_lookup_middle; [done|]. by rewrite replicate_length. } { rewrite list_lookup_middle; [done|]. lia. }
      rewrite !take_app_alt in Ht by (rewrite ?replicate_length; done). rewrite reported_all in Ht.
      rewrite (Hr eq_refl). symmetry. exact Ht.
    + split; [by rewrite replicate_length|]. split; [lia|]. intros i e' b p' He Hb Hp.
      pose proof (lookup_lt_Some _ _ _ He) as Hi.
      destruct (H i e' b p') as (t & Ht & Hr). { by rewrite lookup_app_l. } { rewrite lookup_app_l by (rewrite replicate_length; lia). done. } { rewrite lookup_app_l by lia. done. }
      rewrite !take_app_le in Ht by (rewrite ?replicate_length; lia). by exists t.
Qed.

Theorem C54_first_panic fail pr o o' w n l e d :
  vx_new fail o (Dev w n) = Some d → ∀ d', 
  (∃ y t, vd_events pr l (vd_new o w) = Some y ∧ vd_output y = Some t ∧
     (vx_events fail pr l d = (replicate (length l) true, d') → dv_text <$> vx_output d' = Some t) ∧
     (vx_events fail pr (l ++ [e]) d = (replicate (length l) true ++ [false], d') →
      ∃ y1 t1 p, vd_events pr (l ++ [e]) (vd_new o w) = Some y1 ∧ vd_output y1 = Some t1 ∧
        dv_text <$> vx_output d' = Some p ∧ t `prefix_of` p ∧ p `prefix_of` t1)) ∧
  (∀ d', tx_events fail l (tx_new o' (Dev w n)) = (replicate (length l) true, d') → dv_text (tx_output d') = w ++ td_document o' l) ∧
  (∀ d', tx_events fail (l ++ [e]) (tx_new o' (Dev w n)) = (replicate (length l) true ++ [false], d') →
     ∃ p, dv_text (tx_output d') = p ∧ w ++ td_document o' l `prefix_of` p ∧ p `prefix_of` w ++ td_document o' (l ++ [e])).
Proof.
  intros Hn d'. split; [|split].
  - pose proof (events_out pr o l [] (w ++ header)) as H1. pose proof (events_out pr o (l ++ [e]) [] (w ++ header)) as H2. cbn zeta in H1, H2.
    do 2 eexists. split; [exact H1|]. split; [reflexivity|]. split.
    + intros Hr. destruct (C54_visgraph fail pr o w n l d _ d' Hn Hr) as (ps & m & Hp & ->). cbn. f_equal.
      rewrite (pieced_all pr o l ps Hp). by rewrite <- app_assoc.
    + intros Hr. destruct (C54_visgraph fail pr o w n (l ++ [e]) d _ d' Hn Hr) as (ps & m & Hp & ->).
      do 3 eexists. split; [exact H2|]. split; [reflexivity|]. split; [reflexivity|]. cbn [dv_text].
      assert (∃ ps' p, ps = ps' ++ [p] ∧ pieced (vd_says pr o) l (replicate (length l) true) ps' ∧ p `prefix_of` event_text pr o (l, e)) as (ps' & p & -> & Hp' & Hpre).
      { destruct Hp as (Ha & Hb & H). destruct ps as [|p ps _] using rev_ind; [rewrite app_length in Hb; cbn in Hb; lia|].
        rewrite !app_length in Hb. cbn in Hb. exists ps, p. split; [done|]. split.
        - split; [by rewrite replicate_length|]. split; [lia|]. intros i e' b p' He Hb' Hp.
          pose proof (lookup_lt_Some _ _ _ He) as Hi.
          destruct (H i e' b p') as (t & Ht & Hr'). { by rewrite lookup_app_l. } { rewrite lookup_app_l by (rewrite replicate_length; lia). done. } { rewrite lookup_app_l by lia. done. }
          rewrite !take_app_le in Ht by (rewrite ?replicate_length; lia). by exists t.
        - destruct (H (length l) e false p) as (t & Ht & Hpre & _).
          { by rewrite list_lookup_middle. } { rewrite list_lookup_middle; [done|]. by rewrite replicate_length. } { rewrite list_lookup_middle; [done|]. lia. }
          rewrite !take_app_alt in Ht by (rewrite ?replicate_length; done). rewrite reported_all in Ht.
          by rewrite (vd_says_det pr o l e _ _ (vd_says_text pr o l e) Ht). }
      rewrite concat_app. cbn [concat]. rewrite app_nil_r, (pieced_all pr o l ps' Hp'). rewrite with_past_app, bind_app. cbn [mbind list_bind app].
      rewrite app_nil_r, <- !app_assoc. split; repeat apply prefix_app; [by apply prefix_app_r|done].
  - intros x Hr. destruct (C54_textual fail o' w n l _ x Hr) as (ps & m & Hp & ->). cbn. f_equal. by apply pieced_all_t.
  - intros x Hr. destruct (C54_textual fail o' w n (l ++ [e]) _ x Hr) as (ps & m & Hp & ->).
    eexists. split; [reflexivity|]. cbn [dv_text].
    assert (∃ ps' p, ps = ps' ++ [p] ∧ pieced (td_says o') l (replicate (length l) true) ps' ∧ p `prefix_of` line_of o' l e) as (ps' & p & -> & Hp' & Hpre).
    { destruct Hp as (Ha & Hb & H). destruct ps as [|p ps _] using rev_ind; [rewrite app_length in Hb; cbn in Hb; lia|].
      rewrite !app_length in Hb. cbn in Hb. exists ps, p. split; [done|]. split.
      - split; [by rewrite replicate_length|]. split; [lia|]. intros i e' b p' He Hb' Hp.
        pose proof (lookup_lt_Some _ _ _ He) as Hi.
        destruct (H i e' b p') as (t & Ht & Hr'). { by rewrite lookup_app_l. } { rewrite lookup_app_l by (rewrite replicate_length; lia). done. } { rewrite lookup_app_l by lia. done. }
        rewrite !take_app_le in Ht by (rewrite ?replicate_length; lia). by exists t.
      - destruct (H (length l) e false p) as (t & Ht & Hpre & _).
        { by rewrite list_lookup_middle. } { rewrite list_lookup_middle; [done|]. by rewrite replicate_length. } { rewrite list_lookup_middle; [done|]. lia. }
        rewrite !take_app_alt in Ht by (rewrite ?replicate_length; done). rewrite reported_all in Ht.
        unfold td_says in Ht. rewrite (td_says_text o' l e) in Ht. apply (inj (app _)) in Ht. by rewrite Ht. }
    rewrite concat_app. cbn [concat]. rewrite app_nil_r, (pieced_all_t o' l ps' Hp'), td_says_text. split.
    + apply prefix_app. by apply prefix_app_r.
    + by repeat apply prefix_app.
Qed.
Print Assumptions C54_first_panic.

(** With a reliable output nothing panics and the doctors are those of C36. *)
Theorem C54_reliable fail pr o o' w n l : (∀ k, fail k = None) →
  (∃ d d' y, vx_new fail o (Dev w n) = Some d ∧ vx_events fail pr l d = (replicate (length l) true, d') ∧
     vd_events pr l (vd_new o w) = Some y ∧ dv_text <$> vx_output d' = vd_output y ∧ vx_count d' = vd_count y) ∧
  (∃ d', tx_events fail l (tx_new o' (Dev w n)) = (replicate (length l) true, d') ∧ dv_text (tx_output d') = w ++ td_document o' l).
Proof.
  intros Hf. split.
  - assert (vx_new fail o (Dev w n) = Some (VDocX o (Some (Dev (w ++ header) (S n))) (0%N, 0%N))) as Hn.
    { unfold vx_new, dev_write. cbn [dv_ops]. by rewrite Hf. }
    assert (∀ d, vx_output d ≠ None → (vx_events fail pr l d).1 = replicate (length l) true) as Hr.
    { clear Hn. induction l as [|e l IH]; intros d Hd; [done|]. cbn [vx_events fst length replicate].
      assert (∃ d1, vx_event fail pr e d = WOk d1 ∧ vx_output d1 ≠ None) as (d1 & -> & Hd1); [|by rewrite IH].
      destruct d as [o1 [w1|] c]; [|done].
      destruct e; cbn [vx_event]; unfold vx_resolve, vx_build, vx_clear, vx_flush, vx_writeln, vx_write, dev_write;
        cbn [vx_output vx_opts vx_count wbind dv_ops]; rewrite ?Hf; cbn [vx_output vx_opts vx_count wbind dv_ops]; rewrite ?Hf;
        cbn [vx_output vx_opts vx_count wbind dv_ops]; rewrite ?Hf; cbn [vx_output vx_opts vx_count wbind dv_ops]; rewrite ?Hf; eexists; (split; [reflexivity|done]). }
    specialize (Hr (VDocX o (Some (Dev (w ++ header) (S n))) (0%N, 0%N)) ltac:(done)).
    destruct (vx_run fail pr o (w ++ header) (S n) l) as (ps & m & Hp & Hy).
    rewrite Hr in Hp, Hy. rewrite reported_all in Hy.
    pose proof (events_out pr o l [] (w ++ header)) as H1. cbn zeta in H1.
    eexists _, (vx_events fail pr l _).2, _. split; [exact Hn|]. split; [rewrite <- Hr; apply surjective_pairing|]. split; [exact H1|].
    rewrite Hy. cbn. split; [|done]. f_equal. f_equal. by apply pieced_all.
  - assert (∀ d, (tx_events fail l d).1 = replicate (length l) true) as Hr.
    { induction l as [|e l IH]; intros d; [done|]. cbn [tx_events fst length replicate]. rewrite IH. f_equal.
      destruct e; cbn [tx_event]; unfold tx_resolve, tx_build, tx_clear, tx_invalidate, tx_writeln, tx_write, dev_write;
        destruct (to_addresses (tx_opts d)); rewrite ?Hf; cbn [wbind tx_opts tx_output]; rewrite ?Hf; try done;
        destruct (to_artifact_values (tx_opts d)), (to_addresses (tx_opts d)); rewrite ?Hf; cbn [wbind tx_opts tx_output]; rewrite ?Hf; done. }
    exists (tx_events fail l (tx_new o' (Dev w n))).2. split; [rewrite <- (Hr (tx_new o' (Dev w n))); by destruct (tx_events _ _ _)|].
    destruct (tx_events fail l (tx_new o' (Dev w n))) as [r d'] eqn:He. pose proof (Hr (tx_new o' (Dev w n))) as Hr'. rewrite He in Hr'. cbn in Hr'. subst r.
    cbn [snd]. destruct (C54_textual fail o' w n l _ d' He) as (ps & m & Hp & ->). cbn. f_equal. by apply pieced_all_t.
Qed.
Print Assumptions C54_reliable.

(** Among the builds reported without panic, no two have the same number. *)
Lemma reported_at l r i e : l !! i = Some e → r !! i = Some true → let q := reported (take i l) (take i r) in
  reported l r !! length q = Some e ∧ take (length q) (reported l r) = q.
Proof.
  revert r i. induction l as [|x l IH]; intros [|y r] [|i] Hl Hr; cbn in *; simplify_eq; [done|].
  specialize (IH r i Hl Hr). destruct y; cbn; [|done]. destruct IH as [IH1 IH2]. split; [done|]. by rewrite IH2.
Qed.
Theorem C54_numbers l r i j b a b' a' :
  l !! i = Some (DBuild b a) → r !! i = Some true → l !! j = Some (DBuild b' a') → r !! j = Some true →
  artifact_node (reported (take i l) (take i r)) a = artifact_node (reported (take j l) (take j r)) a' → i = j.
Proof.
  intros Hi Hri Hj Hrj H.
  destruct (reported_at l r i _ Hi Hri) as [Hi1 Hi2]. destruct (reported_at l r j _ Hj Hrj) as [Hj1 Hj2].
  rewrite <- Hi2, <- Hj2 in H. apply (C36_artifact_names _ _ _ _ _ _ _ Hi1 Hj1) in H.
  clear -Hi Hri Hj Hrj H.
  assert (∀ l r i e, l !! i = Some e → r !! i = Some true → ∀ k, i < k → k ≤ length l →
    length (reported (take i l) (take i r)) < length (reported (take k l) (take k r))) as Hlt.
  { clear. intros l. induction l as [|x l IH]; intros [|y r] [|i] e Hl Hr [|k] Hk Hkl; cbn in *; simplify_eq; cbn; try lia.
    specialize (IH r i e Hl Hr k ltac:(lia) ltac:(lia)). destruct y; cbn; lia. }
  pose proof (lookup_lt_Some _ _ _ Hi) as Hil. pose proof (lookup_lt_Some _ _ _ Hj) as Hjl.
  destruct (Nat.lt_trichotomy i j) as [H1|[->|H1]]; [|done|]; exfalso.
  - pose proof (Hlt l r i _ Hi Hri j H1 ltac:(lia)). lia.
  - pose proof (Hlt l r j _ Hj Hrj i H1 ltac:(lia)). lia.
Qed.
Print Assumptions C54_numbers.

(** The end of a [VisgraphDoc]: [into_inner] gives the output back with the closing
    line iff writing that line succeeds; otherwise the line is written again while
    unwinding, and if this fails, too, the process is aborted.  Dropping writes it
    once, and panics iff that fails. *)
Theorem C54_end fail o t n c :
  let d := VDocX o (Some (Dev t n)) c in
  vx_into_inner fail d =
    match fail n, fail (S n) with
    | None, _ => IGot (Dev (t ++ footer) (S n))
    | Some k, None => IPanic (Some (Dev (t ++ take k footer ++ footer) (S (S n))))
    | Some k, Some k' => IAbort (Some (Dev (t ++ take k footer ++ take k' footer) (S (S n))))
    end ∧
  vx_drop fail d =
    match fail n with
    | None => WOk (VDocX o (Some (Dev (t ++ footer) (S n))) c)
    | Some k => WPanic (VDocX o (Some (Dev (t ++ take k footer) (S n))) c)
    end.
Proof.
  unfold vx_into_inner, vx_drop, vx_finish, vx_writeln, vx_write, dev_write. cbn [vx_output vx_opts vx_count dv_ops dv_text]. fold footer.
  destruct (fail n); cbn [vx_output vx_opts vx_count dv_ops dv_text]; [|done]. split; [|done].
  destruct (fail (S n)); cbn [vx_output vx_opts vx_count dv_ops dv_text]; by rewrite app_assoc.
Qed.
Print Assumptions C54_end.

(** But a build whose report panics at its last line has been written, and the next
    build gets the same number; so does its node if the memory is used again: two
    builders share the node of an artifact. *)
Theorem C54_numbers_refuted : ∃ fail d l d' t g x y z at',
  vx_new fail vd_default (Dev [] 0) = Some d ∧ (vx_events fail ascii_printable l d).2 = d' ∧
  vx_drop fail d' = WOk (VDocX vd_default (Some t) (vx_count d')) ∧ read_dot (dv_text t) = Some g ∧
  SEdge x z at' ∈ g_stmts g ∧ SEdge y z at' ∈ g_stmts g ∧ x ≠ y ∧ at' = [(lit "arrowhead", lit "none")].
Proof.
  exists (λ k, if k =? 4 then Some 0 else None). eexists.
  exists [DBuild leaf_b num_a; DBuild top_b num_a]. eexists. eexists. eexists.
  exists (builder_node leaf_b), (builder_node top_b), (artifact_node [] num_a), [(lit "arrowhead", lit "none")].
  split; [vm_compute; reflexivity|]. split; [vm_compute; reflexivity|]. split; [vm_compute; reflexivity|]. split; [vm_compute; reflexivity|].
  split; [|split; [|split; [|done]]]; [| |vm_compute; congruence]; vm_compute; repeat (first [by left|right]).
Qed.
Print Assumptions C54_numbers_refuted.

(** And [into_inner] may write the closing line twice, which spoils the document. *)
Theorem C54_closing_refuted : ∃ fail d d' t,
  vx_new fail vd_default (Dev [] 0) = Some d ∧ vx_events fail ascii_printable some_events d = (replicate 4 true, d') ∧
  vx_into_inner fail d' = IPanic (Some t) ∧ read_dot (dv_text t) = None ∧
  (∃ t' g, vx_drop fail d' = WPanic (VDocX vd_default (Some t') (vx_count d')) ∧ read_dot (dv_text t') = Some g).
Proof.
  exists (λ k, if k =? 13 then Some 2 else None). do 3 eexists.
  split; [vm_compute; reflexivity|]. split; [vm_compute; reflexivity|]. split; [vm_compute; reflexivity|]. split; [vm_compute; reflexivity|].
  do 2 eexists. split; [vm_compute; reflexivity|vm_compute; reflexivity].
Qed.
Print Assumptions C54_closing_refuted.

(** Not vacuous: an output that takes 50 more characters at the second report and
    fails; the third event is reported as if the second had not happened. *)
Theorem C54_applies : ∃ fail d d' ps,
  vx_new fail vd_default (Dev [] 0) = Some d ∧
  vx_events fail ascii_printable [DBuild leaf_b num_a; DBuild top_b num_a; DBuild leaf_b num_a] d = ([true; false; true], d') ∧
  length ps = 3 ∧ dv_text <$> vx_output d' = Some (header ++ concat ps) ∧
  ps !! 1 = Some (take 50 (event_text ascii_printable vd_default ([DBuild leaf_b num_a], DBuild top_b num_a))) ∧
  ps !! 2 = Some (event_text ascii_printable vd_default ([DBuild leaf_b num_a], DBuild leaf_b num_a)) ∧
  ps !! 2 ≠ Some (event_text ascii_printable vd_default ([DBuild leaf_b num_a; DBuild top_b num_a], DBuild leaf_b num_a)).
Proof.
  exists (λ k, if k =? 6 then Some 23 else None). do 2 eexists.
  exists [event_text ascii_printable vd_default ([], DBuild leaf_b num_a);
    take 50 (event_text ascii_printable vd_default ([DBuild leaf_b num_a], DBuild top_b num_a));
    event_text ascii_printable vd_default ([DBuild leaf_b num_a], DBuild leaf_b num_a)].
  split; [vm_compute; reflexivity|]. split; [vm_compute; reflexivity|]. split; [reflexivity|]. split; [vm_compute; reflexivity|].
  split; [reflexivity|]. split; [reflexivity|]. vm_compute. congruence.
Qed.
Print Assumptions C54_applies.
