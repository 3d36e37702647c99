(** Transparency with artifacts changed in place: proofs.
    A state in which artifacts of [P] have been changed is compared with the one in which
    the builders [P] have other code, just returning the changed artifact.  The cache
    does the same in both, as it does not run builders whose artifact it has. *)
From Verif Require Export EditSpec MinOrder.
From stdpp Require Import relations.

Definition pin (M : obj → option bin) (s : st) : st :=
  St (ch s) (map_imap (λ o x, Some (edited_def M o x.1, x.2)) (objs s)) (alive s) (nobj s) (nbin s) (tick s) (stack s)
     (reent s) (trace s).
Definition pino {A} (M : obj → option bin) (x : outcome A) : outcome A :=
  match x with
  | Done a s => Done a (pin M s)
  | Panic k s => Panic k (pin M s)
  | NoFuel => NoFuel
  | Illegal => Illegal
  end.

Section Pin.
Context (E : env) (M : obj → option bin).
Local Notation prim := (Prims.prim E).
Local Notation prims := (rtc prim).

Lemma pin_objs s o : objs (pin M s) !! o = (λ x, (edited_def M o x.1, x.2)) <$> objs s !! o.
Proof. cbn. rewrite map_lookup_imap. by destruct (objs s !! o). Qed.
Lemma pin_addr s o d a : objs s !! o = Some (d, a) → objs (pin M s) !! o = Some (edited_def M o d, a).
Proof. intros H. by rewrite pin_objs, H. Qed.
Lemma pin_addr_inv s o d' a : objs (pin M s) !! o = Some (d', a) → ∃ d, objs s !! o = Some (d, a) ∧ d' = edited_def M o d.
Proof. rewrite pin_objs. destruct (objs s !! o) as [[d a']|]; [|done]. cbn. intros [= <- <-]. eauto. Qed.
Lemma edited_fields o d : bd_aty (edited_def M o d) = bd_aty d ∧ bd_sty (edited_def M o d) = bd_sty d ∧ bd_init (edited_def M o d) = bd_init d.
Proof. by destruct d. Qed.

Lemma pin_cached s o : cached (pin M s) o = cached s o.
Proof. unfold cached. rewrite pin_objs. by destruct (objs s !! o) as [[d a]|]. Qed.
Lemma pin_state s o : state_of (pin M s) o = state_of s o.
Proof. unfold state_of. rewrite pin_objs. by destruct (objs s !! o) as [[d a]|]. Qed.
Lemma pin_initial s o : initial (pin M s) o = initial s o.
Proof. unfold initial. rewrite pin_objs. destruct (objs s !! o) as [[d a]|]; [|done]. cbn. apply edited_fields. Qed.
Lemma pin_config s o : config (pin M s) o = config s o.
Proof. unfold config. by rewrite pin_state, pin_initial. Qed.
Lemma pin_at s o : (∃ d a, at_addr (pin M s) o d a ∧ known (ch s) !! a = Some o) ↔ (∃ d a, at_addr s o d a ∧ known (ch s) !! a = Some o).
Proof.
  split.
  - intros (d' & a & H & Hk). apply pin_addr_inv in H as (d & H & _). eauto.
  - intros (d & a & H & Hk). apply pin_addr in H. eauto.
Qed.
Lemma pin_knows s o : knows (pin M s) o ↔ knows s o.
Proof. exact (pin_at s o). Qed.
Lemma pin_depends s u w : depends (pin M s) u w ↔ depends s u w.
Proof.
  split.
  - intros (du & ua & dw & wa & X & H1 & H2 & H3 & H4 & H5 & H6).
    apply pin_addr_inv in H1 as (? & H1 & _). apply pin_addr_inv in H3 as (? & H3 & _). repeat eexists; eauto.
  - intros (du & ua & dw & wa & X & H1 & H2 & H3 & H4 & H5 & H6).
    apply pin_addr in H1. apply pin_addr in H3. repeat eexists; eauto.
Qed.
Lemma pin_forgets s F G s' : forgets s F G s' → forgets (pin M s) F G (pin M s').
Proof.
  intros [H1 H2 H3 H4 H5 H6 H7 H8 H9]. split; try done.
  - intros w. rewrite pin_cached. apply H1.
  - intros w. rewrite !pin_cached. apply H2.
  - intros w. rewrite pin_state. apply H3.
  - intros w. rewrite !pin_state. apply H4.
  - intros w. rewrite !pin_knows. apply H5.
  - intros u w. rewrite !pin_depends. apply H6.
  - unfold pin. cbn. by rewrite H7.
Qed.
Lemma pin_promise s o : promise o (pin M s) = (λ x, (edited_def M o x.1, x.2)) <$> promise o s.
Proof. unfold promise. cbn [alive pin]. destruct (bool_decide _); [|done]. apply pin_objs. Qed.

Lemma pin_Inv s : Inv s → Inv (pin M s).
Proof.
  intros [IC I2 I3 I4 I5]. split.
  - destruct IC as [C1 C2 C3 C4 C5 C6 C7 C8]. split; try done.
    + intros a o Hk. destruct (C6 a o Hk) as [d Hd]. eexists. by apply pin_addr.
    + intros a e o d' He Hk Ho. apply pin_addr_inv in Ho as (d & Ho & ->).
      destruct (edited_fields o d) as (-> & _). by eapply C7.
    + intros a e o d' He Hk Ho. apply pin_addr_inv in Ho as (d & Ho & ->).
      destruct (edited_fields o d) as (_ & -> & _). by eapply C8.
  - intros o x. rewrite pin_objs. destruct (objs s !! o) eqn:Ho; [|done]. intros _. by eapply I2.
  - intros o Ho. rewrite pin_objs. destruct (I3 o Ho) as [x ->]. eauto.
  - intros o o' d d' a Hp Hp' Ho Ho'. apply pin_addr_inv in Ho as (? & Ho & _). apply pin_addr_inv in Ho' as (? & Ho' & _).
    exact (I4 o o' _ _ a Hp Hp' Ho Ho').
  - intros o Ho. destruct (I5 o Ho) as (H1 & d & a & H2 & H3). split; [done|]. eexists _, a. split; [by apply pin_addr|done].
Qed.

Lemma pin_pureinv_pure s : pureinv (pin M s) → ∀ o d a, objs s !! o = Some (d, a) → pure_prog (bd_body (edited_def M o d)).
Proof. intros [H _] o d a Ho. eapply H. by apply pin_addr. Qed.

(** ** Both do the same *)
Definition here (s : st) : Prop := Inv s ∧ ∀ o, is_Some (M o) → is_Some (cached s o).
Lemma here_prims s s' : here s → prims s s' → here s'.
Proof.
  intros [I H] Hp. split; [by eapply (prims_Inv E)|]. intros o Ho. apply H in Ho.
  assert (has s' o) as Hh by (eapply (has_mono E); [exact I|exact Hp|]; unfold has; by apply not_eq_None_Some).
  by apply not_eq_None_Some.
Qed.
Lemma here_objs s o : here s → M o ≠ None → (o < nobj s)%N.
Proof.
  intros [I H] Ho. apply not_eq_None_Some in Ho. apply H in Ho as [b Hb]. unfold cached in Hb.
  destruct (objs s !! o) as [[d a]|] eqn:Hx; [|done]. by apply (i_num _ I) in Hx.
Qed.

Lemma pin_set_ch c s : set_ch c (pin M s) = pin M (set_ch c s).
Proof. done. Qed.
Lemma pin_alloc d s : here s → alloc E d (pin M s) = (λ x, (x.1, pin M x.2)) <$> alloc E d s.
Proof.
  intros Hh. unfold alloc. change (tick (pin M s)) with (tick s). change (ch (pin M s)) with (ch s).
  change (alive (pin M s)) with (alive s). change (nobj (pin M s)) with (nobj s).
  match goal with |- context [if @bool_decide ?X ?DX || _ then None else Some (nobj s, St _ (<[_:=_]> (objs (pin M s))) _ _ _ _ _ _ _)] =>
    match goal with |- context [_ <$> (if @bool_decide ?Y ?DY || _ then _ else _)] =>
      assert (@bool_decide X DX = @bool_decide Y DY) as Heq end end.
  { apply bool_decide_ext. split; intros (o & Ho & Hx); exists o; split; try done; revert Hx; rewrite pin_objs;
      by destruct (objs s !! o) as [[? ?]|]. }
  rewrite Heq. destruct (_ || _); [done|]. cbn. do 2 f_equal. unfold pin. cbn. f_equal.
  apply map_eq. intros o. rewrite map_lookup_imap. destruct (decide (o = nobj s)) as [->|Hne].
  - rewrite !lookup_insert. cbn. destruct d. cbn. destruct (M (nobj s)) eqn:HM; [|done].
    assert (nobj s < nobj s)%N by (apply here_objs; [done|congruence]). lia.
  - rewrite !lookup_insert_ne by done. by rewrite map_lookup_imap.
Qed.
Lemma pin_drop o s : drop_obj o (pin M s) = pin M <$> drop_obj o s.
Proof. unfold drop_obj. cbn [pin alive stack]. by destruct (_ && _). Qed.

Definition bld_same (bld : obj → st → outcome bres) : Prop :=
  ∀ o s d a, here s → promise o s = Some (d, a) → artifacts (ch s) !! a = None → bld o (pin M s) = pino M (bld o s).

Lemma get_with_same bld h o s : bld_same bld → here s → get_with E bld h o (pin M s) = pino M (get_with E bld h o s).
Proof.
  intros Hb Hh. unfold get_with. rewrite pin_promise. destruct (promise o s) as [[d a]|] eqn:Hp; [|done].
  cbn [fmap option_fmap option_map fst snd]. destruct (how_legal E h); [|done].
  destruct (edited_fields o d) as (-> & _). cbn [ch pin].
  pose proof (lookup_art_ok (e_dbg E) o s d a (proj1 Hh) Hp) as Hl. rewrite Hl.
  destruct (artifacts (ch s) !! a) as [e|] eqn:He; [done|].
  rewrite (Hb o s d a Hh Hp He). destruct (bld o s) as [[e|e] s1|k s1| |]; try done. cbn. by destruct (_ =? _)%N.
Qed.

Lemma exec_same bld u du ua S :
  bld_ok E bld → bld_same bld → ∀ p s, here s → stack s = u :: S → objs s !! u = Some (du, ua) →
  exec E bld u ua (bd_sty du) p (pin M s) = pino M (exec E bld u ua (bd_sty du) p s).
Proof.
  intros Hb Hbs p.
  induction p as [r| |h w k IH|k IH|v' p IH|k IH|v' k IH|d k IH|w p IH]; intros s Hh Hst Hu; cbn [exec]; try done.
  - unfold resolve_with. rewrite pin_promise. destruct (promise w s) as [[d wa]|] eqn:Hp; [|done].
    cbn [fmap option_fmap option_map fst snd ch pin]. unfold track_dependency.
    destruct Hh as [I HM]. pose proof (conj I HM : here s) as Hh.
    destruct (i_stack _ I u) as (_ & d' & a' & Hu' & Hku & Hdu); [rewrite Hst; left|].
    assert (a' = ua ∧ d' = du) as [-> ->] by (split; congruence).
    assert (prim s (set_ch (make_known wa w (ch s)) s)) as P1 by (eapply pm_know; eauto).
    assert (known (make_known wa w (ch s)) !! ua = Some u) as Hku1 by (by apply make_known_mono).
    unfold is_known. rewrite (bool_decide_eq_true_2 (is_Some _)) by (rewrite Hku1; eauto).
    rewrite andb_false_r.
    set (s1 := log (EResolve u w) (set_ch (add_edge ua wa (make_known wa w (ch s))) s)).
    assert (prim (set_ch (make_known wa w (ch s)) s) s1) as P2.
    { eapply (pm_edge E (set_ch (make_known wa w (ch s)) s)); try done. apply make_known_known. }
    assert (prims s s1) as P01 by (eapply rtc_l; [exact P1|by apply rtc_once]).
    pose proof (here_prims _ _ Hh P01) as Hh1.
    pose proof (get_with_same bld h w s1 Hbs Hh1) as HG.
    pose proof (get_with_prims E bld h w s1 Hb (i_wf _ (proj1 Hh1))) as [Q1 Q2].
    change (log (EResolve u w) _) with (pin M s1) at 1. rewrite HG. clear HG. change (log (EResolve u w) _) with s1.
    destruct (get_with E bld h w s1) as [rv s2|pk s2| |] eqn:Hgw; try done. cbn [pino].
    assert (prims s1 s2) as P12 by (apply Q1; left; eauto).
    pose proof (here_prims _ _ Hh1 P12) as Hh2.
    assert (here (log (EGot u w rv) s2)) as Hh3 by (split; [by apply Inv_log, Hh2|apply Hh2]).
    destruct (Q2 _ _ eq_refl) as [Hst2 _].
    change (log (EGot u w rv) (pin M s2)) with (pin M (log (EGot u w rv) s2)).
    apply IH; [done| |].
    + cbn. by rewrite Hst2.
    + cbn. exact (prims_objs E s1 s2 u (du, ua) P12 (i_wf _ (proj1 Hh1)) Hu).
  - cbn [ch pin]. destruct (my_state _ _ _ _); [done|]. by apply IH.
  - cbn [ch pin]. destruct Hh as [I HM]. pose proof (conj I HM : here s) as Hh.
    destruct (i_stack _ I u) as (_ & d' & a' & Hu' & Hku & Hdu); [rewrite Hst; left|].
    assert (a' = ua ∧ d' = du) as [-> ->] by (split; congruence).
    destruct (my_state _ _ _ _); [done|]. rewrite pin_set_ch. apply IH; try done.
    eapply here_prims; [exact Hh|]. apply rtc_once. eapply pm_set; eauto.
  - apply (IH (e_ask E (tick s)) (tock s)); try done. eapply here_prims; [exact Hh|]. apply rtc_once, pm_tick.
  - apply (IH (Bin (nbin s) v') (set_nbin (N.succ (nbin s)) s)); try done.
    eapply here_prims; [exact Hh|]. apply rtc_once, pm_newbin.
  - rewrite (pin_alloc d s Hh). destruct (alloc E d s) as [[o s1]|] eqn:Ha; [|done]. cbn [fmap option_fmap option_map fst snd].
    apply IH.
    + eapply here_prims; [exact Hh|]. apply rtc_once. by eapply pm_alloc.
    + by apply alloc_Some in Ha as (_ & -> & _).
    + assert (u < nobj s)%N by (by apply (i_num _ (proj1 Hh)) in Hu).
      apply alloc_Some in Ha as (-> & -> & _). cbn. rewrite lookup_insert_ne by lia. done.
  - rewrite pin_drop. destruct (drop_obj w s) as [s1|] eqn:Ha; [|done]. cbn [fmap option_fmap option_map].
    apply IH.
    + eapply here_prims; [exact Hh|]. apply rtc_once. by eapply pm_drop.
    + by apply drop_Some in Ha as (_ & _ & ->).
    + by apply drop_Some in Ha as (_ & _ & ->).
Qed.

Lemma build_same n : bld_same (build E n).
Proof.
  induction n as [|n IH]; intros o s d a Hh Hp Hn; [done|]. cbn [build]. rewrite pin_promise, Hp.
  cbn [fmap option_fmap option_map fst snd].
  assert (M o = None) as HM.
  { destruct (M o) eqn:HM; [|done]. destruct (proj2 Hh o) as [b' Hb']; [eauto|].
    rewrite (live_cached s o d a (proj1 Hh) Hp), Hn in Hb'. done. }
  destruct d as [aty sty init body] eqn:Hd. cbn [edited_def]. rewrite HM. cbn [ch pin].
  unfold contains_artifact. rewrite Hn.
  rewrite (bool_decide_eq_false_2 (is_Some None)) by (intros [? ?]; done). rewrite andb_false_r.
  apply promise_Some in Hp as Hp'. destruct Hp' as [Hal Ho].
  destruct (ensure_dyn_state a o sty init (make_known a o (ch s))) as [c2 [k|v]] eqn:He; [done|].
  destruct (ensure_prims E o s (BDef aty sty init body) a c2 (inr v) Hp He) as (E1 & Ea & Ek & Ed).
  set (s1 := log (ECall o) (set_reent (reent s || bool_decide (o ∈ stack s)) (set_stack (o :: stack s) (set_ch c2 s)))).
  assert (prims s s1) as P01.
  { eapply rtc_r; [exact E1|]. eapply (pm_push E (set_ch c2 s)); eauto. cbn. congruence. }
  pose proof (here_prims _ _ Hh P01) as Hh1.
  pose proof (exec_same (build E n) o (BDef aty sty init body) a (stack s) (build_bld_ok E n) IH body s1 Hh1 eq_refl Ho) as HX.
  cbn [bd_sty] in HX. 
  change (log (ECall o) _) with (pin M s1) at 1. rewrite HX. clear HX.
  change (log (ECall o) _) with s1.
  destruct (exec E (build E n) o a sty body s1) as [[b|e] s2|k s2| |]; try done. cbn [pino ch pin].
  cbn [artifacts set_artifacts]. by rewrite lookup_insert.
Qed.
Lemma get_same n h o s : here s → get E n h o (pin M s) = pino M (get E n h o s).
Proof. apply get_with_same, build_same. Qed.

Lemma step_same n x s :
  here s → match x with OGetMut _ _ | OLookupMut _ _ => False | _ => True end →
  step E n x (pin M s) = pino M (step E n x s).
Proof.
  intros Hh Hx. destruct x as [d|o|h o|o f|h o|o f|o|o f|o|o|o| | | |o| ]; try done; cbn [step].
  - rewrite (pin_alloc d s Hh). by destruct (alloc E d s) as [[o s1]|].
  - rewrite pin_drop. by destruct (drop_obj o s).
  - rewrite (get_same n h o s Hh). by destruct (get E n h o s).
  - rewrite pin_promise. destruct (promise o s) as [[d a]|]; [|done]. cbn [fmap option_fmap option_map fst snd].
    destruct (how_legal E h); [|done]. destruct (edited_fields o d) as (-> & _). cbn [ch pin].
    by destruct (lookup_art _ _ _ _).
  - rewrite pin_promise. destruct (promise o s) as [[d a]|]; [|done]. cbn [fmap option_fmap option_map fst snd].
    destruct (edited_fields o d) as (_ & -> & ->). cbn [ch pin]. by destruct (ensure_dyn_state _ _ _ _ _) as [? [?|?]].
  - rewrite pin_promise. destruct (promise o s) as [[d a]|]; [|done]. cbn [fmap option_fmap option_map fst snd].
    destruct (edited_fields o d) as (_ & -> & ->). unfold prio. cbn [ch pin tick].
    destruct (invalidate_by_id _ _ _ _) as [c|k c|]; [|done..]. cbn [ch log tock set_ch].
    by destruct (ensure_dyn_state _ _ _ _ _) as [? [?|?]].
  - rewrite pin_promise. destruct (promise o s) as [[d a]|]; [|done]. cbn [fmap option_fmap option_map fst snd].
    destruct (edited_fields o d) as (_ & -> & _). cbn [ch pin]. by destruct (get_dyn_state _ _ _ _).
  - rewrite pin_promise. destruct (promise o s) as [[d a]|]; [|done]. cbn [fmap option_fmap option_map fst snd].
    unfold prio. cbn [ch pin tick]. by destruct (invalidate_by_id _ _ _ _).
  - rewrite pin_promise. destruct (promise o s) as [[d a]|]; [|done]. cbn [fmap option_fmap option_map fst snd].
    unfold prio. cbn [ch pin tick]. by destruct (purge _ _ _ _).
  - unfold prio. cbn [ch pin tick alive]. by destruct (garbage_collection _ _ _ _).
  - rewrite pin_promise. by destruct (promise o s) as [[d a]|].
Qed.
Lemma goes_same n x s s' :
  here s → match x with OGetMut _ _ | OLookupMut _ _ => False | _ => True end →
  goes (step E n x s) s' → goes (step E n x (pin M s)) (pin M s').
Proof.
  intros Hh Hx [[r Hr]|(k & Hr & Hk)]; rewrite (step_same n x s Hh Hx), Hr; cbn; [left|right]; eauto.
Qed.
End Pin.

(** ** Changing what is pinned *)
Lemma pin_ext M M' s : (∀ o, M o = M' o) → pin M s = pin M' s.
Proof.
  intros H. unfold pin. f_equal. apply map_eq. intros o. rewrite !map_lookup_imap.
  destruct (objs s !! o) as [[[] ?]|]; [|done]. cbn. by rewrite H.
Qed.
Lemma pin_def M s o : defs (pin M s) o = edited_def M o <$> defs s o.
Proof. unfold defs. rewrite pin_objs. by destruct (objs s !! o) as [[? ?]|]. Qed.
Definition all_pure (s : st) : Prop := ∀ o d a, objs s !! o = Some (d, a) → pure_prog (bd_body d) ∧ oblivious (bd_body d).
Lemma edited_pure M s o d a : all_pure s → objs s !! o = Some (d, a) → pure_prog (bd_body (edited_def M o d)).
Proof. intros H Ho. destruct (H o d a Ho) as [H1 _]. destruct d. cbn. by destruct (M o). Qed.
Lemma edited_oblivious M s o d : all_pure s → defs (pin M s) o = Some d → oblivious (bd_body d).
Proof.
  intros H. rewrite pin_def. unfold defs. destruct (objs s !! o) as [[d' a]|] eqn:Ho; [|done]. cbn. intros [= <-].
  destruct (H o d' a Ho) as [_ H1]. destruct d'. cbn. destruct (M o); [|done]. by constructor.
Qed.

(** The evaluation of the others, when something nobody depends on changes. *)
Lemma repin M M' s s' (F : obj → Prop) :
  all_pure s → objs s' = objs s → (∀ u w, depends s u w → ¬ F w) →
  (∀ u w, depends s u w → ¬ F u → depends s' u w) → (∀ o, ¬ F o → config s' o = config s o) → (∀ o, ¬ F o → M' o = M o) →
  pureinv (pin M s) → (∀ u b, cached s' u = Some b → ¬ F u ∧ cached s u = Some b ∨ ok_art (pin M' s') u b) → pureinv (pin M' s').
Proof.
  intros Hp Ho Hno HD Hcfg HM [_ H2] Hc. split.
  - intros o d a Hx. apply pin_addr_inv in Hx as (d0 & Hx & ->). rewrite Ho in Hx. by eapply edited_pure.
  - intros u b. rewrite pin_cached. intros Hb. destruct (Hc u b Hb) as [[Hu Hb']|?]; [|done].
    rewrite <- (pin_cached M) in Hb'. specialize (H2 u b Hb').
    refine (proj1 (evD_change (depends (pin M s)) (depends (pin M' s')) (defs (pin M s)) (defs (pin M' s')) (config (pin M s))
      (config (pin M' s')) F _ _ _ _) u _ H2 Hu).
    + intros x w. rewrite pin_depends. intros Hd HF. by destruct (Hno x w Hd).
    + intros x w. rewrite !pin_depends. auto.
    + intros o d HF. rewrite !pin_def. unfold defs. rewrite Ho. destruct (objs s !! o) as [[d' a]|]; [|done]. cbn.
      intros [= <-]. destruct d'. cbn. by rewrite HM.
    + intros o d HF _. rewrite !pin_config. auto.
Qed.

Lemma cached_config s o b : Inv s → cached s o = Some b → ∃ v d, config s o = Some v ∧ defs s o = Some d.
Proof.
  intros I. unfold cached, config, defs, state_of. destruct (objs s !! o) as [[d a]|]; [|done].
  destruct (decide _); [|done]. destruct (artifacts (ch s) !! a) eqn:Ha; [|done]. intros _.
  destruct (ci_art_dyn _ _ (i_c _ I) a) as [v Hv]; [eauto|]. rewrite Hv. cbn. eauto.
Qed.
Lemma pinned_ok M s o b : Inv s → cached s o = Some b → M o = Some b → ok_art (pin M s) o b.
Proof.
  intros I Hc HM. destruct (cached_config s o b I Hc) as (v & d & Hv & Hd).
  eapply (evd_body _ _ _ o (edited_def M o d) v).
  - by rewrite pin_def, Hd.
  - by rewrite pin_config.
  - destruct d. cbn. rewrite HM. constructor.
Qed.

(** Something that is no longer there is no longer pinned. *)
Lemma unpin M M' s :
  all_pure s → pureinv (pin M s) →
  (∀ o, M' o = M o ∨ (cached s o = None ∧ ∀ u, ¬ depends s u o)) → pureinv (pin M' s).
Proof.
  intros Hp HP HM. apply (repin M M' s s (λ o, ¬ (M' o = M o))); try done.
  - intros u w Hd Hw. destruct (HM w) as [?|[_ Hn]]; [done|]. by apply (Hn u).
  - intros o Ho. destruct (HM o) as [?|[Hc _]]; [done|].
    destruct (decide (M' o = M o)) as [?|Hne]; [done|]. by apply Ho in Hne.
  - intros u b Hb. left. split; [|done]. intros Hu. destruct (HM u) as [?|[Hc _]]; [done|congruence].
Qed.

(** Writing. *)
Lemma write_pin M M' s o f s' :
  all_pure s → Inv s' → pureinv (pin M s) → (∀ u, ¬ depends s u o) → writes s o f s' →
  M' o = cached s' o → (∀ w, w ≠ o → M' w = M w) → pureinv (pin M' s').
Proof.
  intros Hp I' HP Hno Hw Ho Hother. apply (repin M M' s s' (eq o)).
  - done.
  - apply (wr_objs _ _ _ _ Hw).
  - intros u w Hd <-. by apply (Hno u).
  - intros u w Hd _. by apply (wr_depends _ _ _ _ Hw).
  - intros w _. apply config_ext; [apply (wr_objs _ _ _ _ Hw)|apply (wr_state _ _ _ _ Hw)].
  - intros w Hne. by apply Hother.
  - done.
  - intros u b Hb. destruct (decide (u = o)) as [->|Hne].
    + right. apply pinned_ok; [done|done|congruence].
    + left. split; [done|]. by rewrite <- (wr_others _ _ _ _ Hw).
Qed.

(** ** Histories *)
Section Runs.
Context (E : env).
Local Notation prim := (Prims.prim E).
Local Notation prims := (rtc prim).

Record edit_inv (P : gset obj) (s : st) : Prop := {
  ed_inv : Inv s;
  ed_stack : stack s = [];
  ed_pure : all_pure s;
  ed_here : ∀ o, o ∈ P → is_Some (cached s o);
  ed_coh : pureinv (pin (artifacts_of s P) s);
}.
Lemma artifacts_here s P : Inv s → (∀ o, o ∈ P → is_Some (cached s o)) → here (artifacts_of s P) s.
Proof. intros I H. split; [done|]. intros o. unfold artifacts_of. destruct (decide (o ∈ P)); [auto|by intros [? ?]]. Qed.

(** What a request does. *)
Record got (M : obj → option bin) (s : st) (o : obj) (s' : st) : Prop := {
  gt_inv : Inv s';
  gt_prims : prims s s';
  gt_pure : pureinv (pin M s');
  gt_objs : objs s' = objs s;
  gt_config : ∀ w, config s' w = config s w;
  gt_apart : cached s o = None → ∀ u, depends s' u o → depends s u o;
  gt_went : ∃ l, trace s' = l ++ trace s ∧ went (defs (pin M s)) (config s) (pin M s) (pin M s') (λ z, z = o) (λ _ _, False) l;
}.
Lemma fits_pin M s : fits (defs (pin M s)) (config s) (pin M s).
Proof. intros o. by rewrite pin_config. Qed.
Lemma get_edit M n h o s :
  here M s → all_pure s → pureinv (pin M s) →
  (∀ rv s', get E n h o s = Done rv s' → got M s o s' ∧ ∃ x, ev_at (pin M s') o (EvRet x) ∧ rv = handed h x) ∧
  (∀ k s', get E n h o s = Panic k s' → got M s o s' ∧ ev_at (pin M s') o EvPanic).
Proof.
  intros Hh Hp HP. pose proof (get_same E M n h o s Hh) as Hs. destruct Hh as [I HM].
  pose proof (pin_Inv M s I) as I'. pose proof (get_pure E n h o (pin M s) I' HP) as [H1 H2].
  assert (∀ s', ends (get E n h o s) s' → pureinv (pin M s') → pgrow (pin M s) (pin M s') → (∃ r, ev_at (pin M s') o r) → got M s o s') as Hgot.
  { intros s' He HP' (G1 & G2 & G3) [r Hr].
    assert (prims s s') as Hps by (eapply get_prims; [by apply i_wf|done]).
    assert (ends (get E n h o (pin M s)) (pin M s')) as He'.
    { rewrite Hs. destruct He as [[? He]|[? He]]; rewrite He; cbn; [left|right]; eauto. }
    destruct (get_went E (defs (pin M s)) (config s)
      (λ o d, edited_oblivious M s o d Hp) n h o (pin M s) (pin M s') I' HP (fits_pin M s) He') as (l & Hl & N).
    assert (objs s' = objs s) as Ho.
    { apply map_eq. intros w. destruct (objs s !! w) as [x|] eqn:Hx; [exact (prims_objs E s s' w x Hps (i_wf _ I) Hx)|].
      destruct (objs s' !! w) as [[d a]|] eqn:Hx'; [|done]. apply (pin_addr M) in Hx'. rewrite G1 in Hx'.
      apply pin_addr_inv in Hx' as (? & ? & _). congruence. }
    split; try done.
    - by eapply (prims_Inv E).
    - intros w. specialize (G2 w). by rewrite !pin_config in G2.
    - intros Hc u Hd. cbn [trace pin] in Hl. apply (prims_depends E s s' l u o I Hps Hl) in Hd as [?|Hin]; [done|].
      exfalso. apply (nt_resolved _ _ _ _ _ _ (wt_noted _ _ _ _ _ _ _ N)) in Hin as [[Hcall Hasks]|[]].
      destruct (wt_called _ _ _ _ _ _ _ N u Hcall) as (z & -> & Hw). apply wanted_path in Hw.
      assert (evals (defs (pin M s)) (config s) o r) as Hev.
      { refine (fits_eval _ _ (pin M s') o r _ Hr). apply (fits_grow _ _ (pin M s)); [apply fits_pin|by split_and!]. }
      eapply (evals_no_cycle (defs (pin M s)) (config s) (λ o d, edited_oblivious M s o d Hp) o r Hev).
      clear - Hw Hasks. inversion Hw; subst; [by apply tc_once|]. eapply tc_rtc_l; [exact Hw|]. by apply tc_once.
    - exists l. done. }
  rewrite Hs in H1, H2. destruct (get E n h o s) as [rv s1|k s1| |] eqn:Hg; cbn [pino] in H1, H2; [..|by split|by split].
  - split; [|done]. intros rv' s' [= <- <-]. destruct (H1 _ _ eq_refl) as (A1 & A2 & x & A3 & A4).
    split; [apply Hgot; [left; eauto|done|done|eauto]|eauto].
  - split; [done|]. intros k' s' [= <- <-]. destruct (H2 _ _ eq_refl) as (A1 & A2 & A3).
    split; [apply Hgot; [right; eauto|done|done|eauto]|eauto].
Qed.

Definition plain (x : op) : Prop := match x with OGetMut _ _ | OLookupMut _ _ => False | _ => True end.

(** What happens to an artifact that is there. *)
Lemma plain_fate n x s s' o :
  Inv s → stack s = [] → plain x → goes (step E n x s) s' → is_Some (cached s o) →
  (cached s' o = cached s o ∧ calls s' o = calls s o) ∨ (cached s' o = None ∧ ∀ u, ¬ depends s' u o).
Proof.
  intros I Hst Hx Hg [b Hb]. pose proof (step_effect E n x s s' I Hst Hg) as He.
  assert (prims s s' → cached s' o = cached s o ∧ calls s' o = calls s o) as Hpr.
  { intros Hp. destruct (prims_cached E s s' o b I Hp) as (H1 & _ & H2); [rewrite Hst; apply not_elem_of_nil|done|].
    split; congruence. }
  assert (∀ F G s1, forgets s F G s1 → (cached s1 o = cached s o ∧ calls s1 o = calls s o) ∨ (cached s1 o = None ∧ ∀ u, ¬ depends s1 u o)) as Hfg.
  { intros F G s1 Hf. destruct (cached s1 o) as [b1|] eqn:H1.
    - left. assert (¬ F o) as HF by (intros HF; rewrite (fg_gone _ _ _ _ Hf o HF) in H1; done).
      split; [rewrite <- H1; by apply (fg_kept _ _ _ _ Hf)|apply (fg_calls _ _ _ _ Hf)].
    - right. split; [done|]. intros u Hu. apply (fg_depends _ _ _ _ Hf) in Hu as (_ & _ & HF).
      rewrite (fg_kept _ _ _ _ Hf o HF) in H1. congruence. }
  destruct x as [d|w|h w|w f|h w|w f|w|w f|w|w|w| | | |w| ]; cbn [effect_of] in He; try done; try (by left; auto); try (by subst; auto).
  - destruct He as (_ & [->|(_ & Hs & _)]); [auto|]. left. split; [apply (ss_cached _ _ _ _ Hs)|apply (ss_calls _ _ _ _ Hs)].
  - destruct He as (_ & s1 & Hf & _ & Hs). destruct (Hfg _ _ _ Hf) as [[H1 H2]|[H1 H2]]; [left|right].
    + by rewrite (ss_cached _ _ _ _ Hs), (ss_calls _ _ _ _ Hs).
    + rewrite (ss_cached _ _ _ _ Hs). split; [done|]. intros u Hu. apply (ss_depends _ _ _ _ Hs) in Hu. by apply (H2 u).
  - destruct He as (_ & Hf & _). eauto.
  - destruct He as (_ & Hf & _). eauto.
  - destruct He as (Hf & _). eauto.
  - destruct He as (Hf & _). eauto.
  - destruct He as [[Hf _]| ->]; [eauto|]. left. done.
Qed.

Lemma all_pure_alloc d s o s' : all_pure s → pure_alloc (OAlloc d) → alloc E d s = Some (o, s') → all_pure s'.
Proof.
  intros Hp [H1 H2] Ha. apply alloc_Some in Ha as (-> & -> & _). intros w d' a. cbn.
  intros [[_ [= <- _]]|[_ Hw]]%lookup_insert_Some; [done|by eapply Hp].
Qed.
Lemma goes_ends n h o s s' : goes (step E n (OGet h o) s) s' → ends (get E n h o s) s'.
Proof.
  unfold goes. cbn [step]. destruct (get E n h o s) as [r s1|k s1| |]; [| |by intros [[? ?]|(? & ? & ?)]..].
  - intros [[? [= _ <-]]|(? & ? & ?)]; [|done]. left. eauto.
  - intros [[? ?]|(? & [= _ <-] & ?)]; [done|]. right. eauto.
Qed.
Lemma plain_pure n x s s' P :
  edit_inv P s → pure_alloc x → plain x → goes (step E n x s) s' → all_pure s'.
Proof.
  intros [I Hst Hp Hh HP] Hx Hpl Hg.
  assert (objs s' = objs s → all_pure s') as Ho by (intros Ho o d a; rewrite Ho; apply Hp).
  destruct x as [d|w|h w|w f|h w|w f|w|w f|w|w|w| | | |w| ]; try (by destruct Hpl);
    try (apply Ho; eapply (step_objs E n _ s s' I Hst); [|..|exact Hg]; [exact Logic.I|discriminate]).
  - unfold goes in Hg. cbn [step] in Hg. destruct (alloc E d s) as [[o s1]|] eqn:Ha; [|by gd].
    destruct Hg as [[r [= _ <-]]|(? & ? & ?)]; [|done]. by eapply all_pure_alloc.
  - apply Ho. apply goes_ends in Hg. destruct (get_edit _ n h w s (artifacts_here s P I Hh) Hp HP) as [H1 H2].
    destruct Hg as [[r Hr]|[k Hr]]; [eapply gt_objs, (H1 _ _ Hr)|eapply gt_objs, (H2 _ _ Hr)].
Qed.
Lemma goes_inv n x s s' : Inv s → stack s = [] → goes (step E n x s) s' → Inv (unwound s').
Proof. apply goes_Inv. Qed.

Lemma artifacts_in s P o : o ∈ P → artifacts_of s P o = cached s o.
Proof. intros H. unfold artifacts_of. by rewrite decide_True. Qed.
Lemma artifacts_out s P o : o ∉ P → artifacts_of s P o = None.
Proof. intros H. unfold artifacts_of. by rewrite decide_False. Qed.
Lemma in_edits P x s s' o :
  o ∈ edits P x s s' ↔ (o ∈ P ∧ is_Some (cached s' o) ∧ calls s' o = calls s o) ∨ o ∈ changed_by x s'.
Proof. unfold edits. rewrite elem_of_union, elem_of_filter. tauto. Qed.
Lemma in_changed x s' o : o ∈ changed_by x s' ↔ is_Some (cached s' o) ∧ ∃ f, x = OGetMut o f ∨ x = OLookupMut o f.
Proof.
  destruct x as [d|w|h w|w f|h w|w f|w|w f|w|w|w| | | |w| ]; cbn [changed_by];
    try (split; [by intros ?%elem_of_empty|by intros (_ & ? & [?|?])]).
  - destruct (decide _) as [H|H]; rewrite ?elem_of_singleton, ?elem_of_empty.
    + split; [intros ->; eauto|]. by intros (_ & ? & [[= <- _]|?]).
    + split; [done|]. intros (Hs & ? & [[= <- _]|?]); done.
  - destruct (decide _) as [H|H]; rewrite ?elem_of_singleton, ?elem_of_empty.
    + split; [intros ->; eauto|]. by intros (_ & ? & [?|[= <- _]]).
    + split; [done|]. intros (Hs & ? & [?|[= <- _]]); done.
Qed.

Lemma plain_edit n x s s' P :
  edit_inv P s → pure_alloc x → plain x → goes (step E n x s) s' → edit_inv (edits P x s s') (unwound s').
Proof.
  intros EI Hx Hpl Hg. pose proof (plain_pure n x s s' P EI Hx Hpl Hg) as Hp'.
  destruct EI as [I Hst Hp Hh HP]. pose proof (artifacts_here s P I Hh) as HM.
  set (M := artifacts_of s P) in *.
  assert (Inv (unwound s')) as I' by (by eapply goes_Inv).
  split; try done.
  - intros o Ho. apply in_edits in Ho as [(_ & ? & _)|[? _]%in_changed]; done.
  - pose proof (goes_same E M n x s s' HM Hpl Hg) as Hg'.
    pose proof (step_pure E n x (pin M s) (pin M s') (pin_Inv M s I) Hst) as Hs.
    assert (pureinv (pin M (unwound s'))) as HP'.
    { apply Hs; try done. destruct x; try done. apply Hx. }
    apply (unpin M _ (unwound s') Hp' HP').
    intros o. destruct (decide (o ∈ P)) as [Ho|Ho].
    + destruct (plain_fate n x s s' o I Hst Hpl Hg (Hh o Ho)) as [[H1 H2]|[H1 H2]]; [left|right; done].
      unfold M. rewrite (artifacts_in s P o Ho). rewrite artifacts_in; [done|]. apply in_edits. left. split_and!; [done| |done].
      rewrite H1. auto.
    + left. unfold M. rewrite (artifacts_out s P o Ho). apply artifacts_out. intros [(? & _)|(_ & f & [->| ->])%in_changed]%in_edits; done.
Qed.

Lemma writes_unwound s o f s' : writes s o f s' → writes s o f (unwound s').
Proof. intros [? ? ? ? ? ? ? ?]. by split. Qed.
Lemma forgets_unwound s F G s' : forgets s F G s' → forgets s F G (unwound s').
Proof. intros [? ? ? ? ? ? ? ? ?]. by split. Qed.

Lemma forgets_edit P s o s1 :
  edit_inv P s → (∀ u, depends s u o → u = o) → forgets s (eq o) (λ _, False) s1 → Inv s1 → stack s1 = [] → edit_inv (P ∖ {[o]}) s1.
Proof.
  intros [I Hst Hp Hh HP] Hno Hf I1 Hst1.
  assert (all_pure s1) as Hp1 by (intros w d a; rewrite (fg_objs _ _ _ _ Hf); apply Hp).
  split; try done.
  - intros w [Hw Hne]%elem_of_difference. rewrite not_elem_of_singleton in Hne.
    rewrite (fg_kept _ _ _ _ Hf); [auto|congruence].
  - apply (unpin (artifacts_of s P)); [done| |].
    + refine (forgets_pureinv _ _ (eq o) (λ _, False) (pin_forgets (artifacts_of s P) _ _ _ _ Hf) _ _ HP); [|done].
      intros u w Hd <-. rewrite pin_depends in Hd. symmetry. by apply Hno.
    + intros w. destruct (decide (w = o)) as [->|Hne].
      { right. split; [by apply (fg_gone _ _ _ _ Hf)|]. intros u Hu. apply (fg_depends _ _ _ _ Hf) in Hu as (_ & _ & ?). done. }
      left. unfold artifacts_of. rewrite (fg_kept _ _ _ _ Hf) by congruence.
      assert (w ∈ P ∖ {[o]} ↔ w ∈ P) as Hiff by (rewrite elem_of_difference, elem_of_singleton; tauto).
      destruct (decide (w ∈ P)), (decide (w ∈ P ∖ {[o]})); tauto.
Qed.
Lemma same_edit P s s1 : edit_inv P s → same s s1 → Inv s1 → stack s1 = [] → edit_inv P s1.
Proof.
  intros [I Hst Hp Hh HP] Hf I1 Hst1.
  assert (all_pure s1) as Hp1 by (intros w d a; rewrite (fg_objs _ _ _ _ Hf); apply Hp).
  split; try done.
  - intros w Hw. rewrite (fg_kept _ _ _ _ Hf); auto.
  - apply (unpin (artifacts_of s P)); [done| |].
    + refine (forgets_pureinv _ _ _ _ (pin_forgets (artifacts_of s P) _ _ _ _ Hf) _ _ HP); done.
    + intros w. left. unfold artifacts_of. by rewrite (fg_kept _ _ _ _ Hf) by tauto.
Qed.
Lemma edit_inv_same P P' s : (∀ o, o ∈ P ↔ o ∈ P') → edit_inv P s → edit_inv P' s.
Proof.
  intros H [I Hst Hp Hh HP]. split; try done.
  - intros o Ho. by apply Hh, H.
  - apply (unpin (artifacts_of s P)); [done|done|]. intros o. left. unfold artifacts_of. specialize (H o).
    destruct (decide (o ∈ P)), (decide (o ∈ P')); tauto.
Qed.
Lemma writes_edit P P' s o f s' :
  edit_inv P s → (∀ u, ¬ depends s u o) → writes s o f s' → Inv s' → stack s' = [] →
  (∀ w, w ∈ P' → is_Some (cached s' w)) → (is_Some (cached s' o) → o ∈ P') → (∀ w, w ≠ o → w ∈ P' ↔ w ∈ P) → edit_inv P' s'.
Proof.
  intros [I Hst Hp Hh HP] Hno Hw I' Hst' H1 H2 H3.
  assert (all_pure s') as Hp' by (intros w d a; rewrite (wr_objs _ _ _ _ Hw); apply Hp).
  split; try done. apply (write_pin (artifacts_of s P) _ s o f); try done.
  - unfold artifacts_of. destruct (decide (o ∈ P')) as [Ho|Ho]; [done|]. destruct (cached s' o) eqn:Hc; [|done].
    destruct Ho. apply H2. eauto.
  - intros w Hne. unfold artifacts_of. rewrite (wr_others _ _ _ _ Hw w Hne). specialize (H3 w Hne).
    destruct (decide (w ∈ P)), (decide (w ∈ P')); tauto.
Qed.

Lemma lookup_mut_edit n o f s s' P :
  edit_inv P s → goes (step E n (OLookupMut o f) s) s' → edit_inv (edits P (OLookupMut o f) s s') (unwound s').
Proof.
  intros EI Hg. pose proof EI as [I Hst Hp Hh HP].
  assert (Inv (unwound s')) as I' by (by eapply goes_Inv).
  destruct (step_effect E n _ s s' I Hst Hg) as (_ & Hno & _ & [[Hd Hw]|[Hd Hf]]).
  - apply (writes_edit P _ s o f); try done.
    + intros u Hu. assert (u = o) as -> by auto. done.
    + by apply writes_unwound.
    + intros w [(_ & ? & _)|[? _]%in_changed]%in_edits; done.
    + intros Hc. apply in_edits. right. apply in_changed. eauto.
    + intros w Hne. rewrite in_edits. split.
      * intros [(? & _)|(_ & ? & [?|?])%in_changed]; [done|congruence..].
      * intros Hw'. left. rewrite (wr_others _ _ _ _ Hw w Hne), (wr_calls _ _ _ _ Hw). auto.
  - apply (edit_inv_same (P ∖ {[o]})).
    + intros w. rewrite in_edits, elem_of_difference, elem_of_singleton. split.
      * intros [Hw' Hne]. left. rewrite (fg_kept _ _ _ _ Hf), (fg_calls _ _ _ _ Hf) by congruence. auto.
      * intros [(? & Hs & _)|(Hs & f' & Hx)%in_changed].
        -- split; [done|]. intros ->. rewrite (fg_gone _ _ _ _ Hf o) in Hs by done. by destruct Hs.
        -- assert (w = o) as -> by (destruct Hx; congruence). rewrite (fg_gone _ _ _ _ Hf o) in Hs by done. by destruct Hs.
    + eapply forgets_edit; [done|done| |done|done]. by apply forgets_unwound.
Qed.

(** Building something that is not there. *)
Lemma got_edit P n h o s s' :
  edit_inv P s → ends (get E n h o s) s' →
  got (artifacts_of s P) s o s' ∧ edit_inv P (unwound s') ∧ (∀ w, w ∈ P → cached s' w = cached s w ∧ calls s' w = calls s w).
Proof.
  intros [I Hst Hp Hh HP] He. destruct (get_edit _ n h o s (artifacts_here s P I Hh) Hp HP) as [H1 H2].
  assert (got (artifacts_of s P) s o s') as G by (destruct He as [[r Hr]|[k Hr]]; [apply (H1 _ _ Hr)|apply (H2 _ _ Hr)]).
  assert (∀ w, w ∈ P → cached s' w = cached s w ∧ calls s' w = calls s w) as Hk.
  { intros w Hw. destruct (Hh w Hw) as [b Hb].
    destruct (prims_cached E s s' w b I (gt_prims _ _ _ _ G)) as (A1 & _ & A2); [rewrite Hst; apply not_elem_of_nil|done|].
    split; congruence. }
  split; [done|]. split; [|done].
  assert (all_pure s') as Hp' by (intros w d a; rewrite (gt_objs _ _ _ _ G); apply Hp).
  split; try done.
  - apply Inv_unwound, G.
  - intros w Hw. rewrite cached_unwound. destruct (Hk w Hw) as [-> _]. auto.
  - apply (unpin (artifacts_of s P)); [done|by eapply pureinv_ext; [apply (gt_pure _ _ _ _ G)|..]|].
    intros w. left. unfold artifacts_of. destruct (decide (w ∈ P)) as [Hw|Hw]; [|done]. rewrite cached_unwound. by apply Hk.
Qed.
Lemma edit_det P s o b r :
  edit_inv P s → cached s o = Some b → ev_at (pin (artifacts_of s P) s) o r → strip_eres r = strip_eres (EvRet (Ok b)).
Proof.
  intros [I Hst Hp Hh HP] Hc Hr. rewrite <- (pin_cached (artifacts_of s P)) in Hc. apply (proj2 HP) in Hc.
  apply evD_evals in Hc. apply evD_evals in Hr.
  exact (proj1 (evals_det _ _ (λ o d, edited_oblivious _ s o d Hp)) o _ Hr _ Hc).
Qed.

Lemma get_mut_start n o f s s' P :
  edit_inv P s → goes (step E n (OGetMut o f) s) s' →
  (∀ u, depends s u o → u = o) ∧
  (((∀ u, ¬ depends s u o) ∧ writes s o f s' ∧ ∃ b, cached s o = Some b ∧ step E n (OGetMut o f) s = Done (OutRes (RvVal (bin_val b))) s') ∨
   ∃ s1, (cached s o = None ∨ depends s o o) ∧ edit_inv (P ∖ {[o]}) s1 ∧ cached s1 o = None ∧ (∀ u, ¬ depends s1 u o) ∧
     (∀ w, w ≠ o → cached s1 w = cached s w) ∧ (∀ w, calls s1 w = calls s w) ∧ objs s1 = objs s ∧ (∀ w, state_of s1 w = state_of s w) ∧
     (∀ u w, depends s1 u w → depends s u w) ∧ (∀ w, live s1 w ↔ live s w) ∧
     ∃ s2, match get E n HRef o s1 with
     | Done (RvVal v) s3 => s3 = s2 ∧ step E n (OGetMut o f) s = Done (OutRes (RvVal v)) s' ∧ writes s2 o f s'
     | Done r s3 => s3 = s2 ∧ s2 = s' ∧ step E n (OGetMut o f) s = Done (OutRes r) s'
     | Panic k s3 => s3 = s2 ∧ s2 = s' ∧ step E n (OGetMut o f) s = Panic k s'
     | _ => False
     end).
Proof.
  intros EI Hg. pose proof EI as [I Hst Hp Hh HP].
  assert (Hk : e_kind E = Boxed).
  { destruct (e_kind E) eqn:Hk; [|done]. unfold goes in Hg. cbn [step] in Hg. unfold op_get_mut in Hg. rewrite Hk in Hg. by gd. }
  assert (live s o) as Hl by apply (step_effect E n _ s s' I Hst Hg).
  destruct (step_effect E n _ s s' I Hst Hg) as (_ & Hno & _). split; [done|].
  destruct (op_get_mut_effect E n o f s I Hst Hl Hk) as (_ & H2 & H3).
  assert (depends s o o ∨ ¬ depends s o o) as Hdec.
  { destruct (live_promise s o I Hl) as (d & a & Hpr).
    pose proof (self_dependent s o d a I Hpr). destruct (decide (dep_rel (ch s) a a)); tauto. }
  assert (cached s o = None ∨ depends s o o ∨ (∃ b, cached s o = Some b ∧ ∀ u, ¬ depends s u o)) as Hcase.
  { destruct (cached s o) as [b|]; [|auto]. right. destruct Hdec; [auto|]. right. exists b. split; [done|].
    intros u Hu. assert (u = o) as -> by auto. done. }
  assert ((∃ b, cached s o = Some b ∧ ∀ u, ¬ depends s u o) ∨ (cached s o = None ∨ depends s o o)) as [(b & Hb & Hnd)|Hmiss] by tauto.
  { left. destruct (H2 b Hnd Hb) as (s1 & Heq & Hw & _). rewrite Heq in Hg |- *.
    destruct Hg as [[r [= _ <-]]|(? & ? & ?)]; [|done]. eauto. }
  right. destruct (H3 Hno Hmiss) as (s1 & I1 & Hst1 & _ & Hal & Hc1 & Hm). exists s1. split; [done|].
  assert (edit_inv (P ∖ {[o]}) s1 ∧ cached s1 o = None ∧ (∀ u, ¬ depends s1 u o) ∧
     (∀ w, w ≠ o → cached s1 w = cached s w) ∧ (∀ w, calls s1 w = calls s w) ∧ objs s1 = objs s ∧ (∀ w, state_of s1 w = state_of s w) ∧
     (∀ u w, depends s1 u w → depends s u w) ∧ (∀ w, live s1 w ↔ live s w))
    as Hs1.
  { destruct Hc1 as [[Hd Hs]|[Hd Hf]].
    - assert (cached s o = None) as Hc by tauto. split_and!.
      + apply (edit_inv_same P); [|by eapply same_edit]. intros w. rewrite elem_of_difference, elem_of_singleton.
        split; [|tauto]. intros Hw. split; [done|]. intros ->. destruct (Hh o Hw). congruence.
      + by rewrite (fg_kept _ _ _ _ Hs) by tauto.
      + intros u Hu. apply (fg_depends _ _ _ _ Hs) in Hu as (Hu & _). assert (u = o) as -> by auto. done.
      + intros w _. apply (fg_kept _ _ _ _ Hs); tauto.
      + apply (fg_calls _ _ _ _ Hs).
      + apply (fg_objs _ _ _ _ Hs).
      + intros w. apply (fg_state_kept _ _ _ _ Hs); tauto.
      + intros u w Hu. by apply (fg_depends _ _ _ _ Hs) in Hu as (Hu & _).
      + apply (fg_live _ _ _ _ Hs).
    - split_and!.
      + by eapply forgets_edit.
      + by apply (fg_gone _ _ _ _ Hf).
      + intros u Hu. apply (fg_depends _ _ _ _ Hf) in Hu as (_ & _ & Hu). done.
      + intros w Hne. apply (fg_kept _ _ _ _ Hf); congruence.
      + apply (fg_calls _ _ _ _ Hf).
      + apply (fg_objs _ _ _ _ Hf).
      + intros w. apply (fg_state_kept _ _ _ _ Hf); tauto.
      + intros u w Hu. by apply (fg_depends _ _ _ _ Hf) in Hu as (Hu & _).
      + apply (fg_live _ _ _ _ Hf). }
  destruct Hs1 as (? & ? & ? & ? & ? & ? & ? & ? & ?). do 9 (split; [done|]).
  cbn [step] in Hm. change (op_get_mut E n o f s) with (step E n (OGetMut o f) s) in Hm.
  destruct (get E n HRef o s1) as [[b|v|e] s2|k s2| |] eqn:Hq.
  - exists s2. rewrite Hm in Hg |- *. destruct Hg as [[r [= _ <-]]|(? & ? & ?)]; done.
  - exists s2. destruct Hm as (s3 & Heq & Hw & _). rewrite Heq in Hg |- *. destruct Hg as [[r [= _ <-]]|(? & ? & ?)]; done.
  - exists s2. rewrite Hm in Hg |- *. destruct Hg as [[r [= _ <-]]|(? & ? & ?)]; done.
  - exists s2. rewrite Hm in Hg |- *. destruct Hg as [[r ?]|(? & [= _ <-] & ?)]; done.
  - rewrite Hm in Hg. by destruct Hg as [[? ?]|(? & ? & ?)].
  - rewrite Hm in Hg. by destruct Hg as [[? ?]|(? & ? & ?)].
Qed.

Lemma get_mut_edit n o f s s' P :
  edit_inv P s → goes (step E n (OGetMut o f) s) s' → edit_inv (edits P (OGetMut o f) s s') (unwound s').
Proof.
  intros EI Hg. pose proof EI as [I Hst Hp Hh HP].
  assert (Inv (unwound s')) as I' by (by eapply goes_Inv).
  destruct (get_mut_start n o f s s' P EI Hg) as (Hno & [(Hnd & Hw & _)|(s1 & _ & EI1 & Hc1 & Hnd1 & Hk1 & Hcl1 & _ & _ & _ & _ & s2 & Hm)]).
  - apply (writes_edit P _ s o f); try done.
    + by apply writes_unwound.
    + intros w [(_ & ? & _)|[? _]%in_changed]%in_edits; done.
    + intros Hc. apply in_edits. right. apply in_changed. eauto.
    + intros w Hne. rewrite in_edits. split.
      * intros [(? & _)|(_ & ? & [?|?])%in_changed]; [done|congruence..].
      * intros Hw'. left. rewrite (wr_others _ _ _ _ Hw w Hne), (wr_calls _ _ _ _ Hw). auto.
  - assert (ends (get E n HRef o s1) s2) as He.
    { destruct (get E n HRef o s1) as [[b|v|e] s3|k s3| |]; [..|done|done]; destruct Hm as [-> _]; [left; eauto..|right; eauto]. }
    destruct (got_edit _ n HRef o s1 s2 EI1 He) as (G & EI2 & Hk2).
    assert ((∃ s3, get E n HRef o s1 = Done s3 s2 ∧ writes s2 o f s') ∨ s2 = s' ∧ cached s' o = None) as [(v & Hv & Hw)|[-> Hn]].
    { destruct (get_edit _ n HRef o s1 (artifacts_here s1 _ (ed_inv _ _ EI1) (ed_here _ _ EI1)) (ed_pure _ _ EI1) (ed_coh _ _ EI1)) as [H1 H2].
      assert (∀ r, (∀ b, r ≠ EvRet (Ok b)) → ev_at (pin (artifacts_of s1 (P ∖ {[o]})) s2) o r → cached s2 o = None) as Hdet.
      { intros r Hr Hev. destruct (cached s2 o) as [b|] eqn:Hb; [|done]. exfalso.
        pose proof (proj2 (gt_pure _ _ _ _ G) o b) as Hok. rewrite pin_cached in Hok. specialize (Hok Hb).
        apply evD_evals in Hok. apply evD_evals in Hev.
        assert (all_pure s2) as Hp2 by apply EI2.
        pose proof (proj1 (evals_det _ _ (λ o d, edited_oblivious _ s2 o d Hp2)) o _ Hev _ Hok) as Heq.
        destruct r as [[b'|e]|]; [by apply (Hr b')|done..]. }
      destruct (get E n HRef o s1) as [[b|v|e] s3|k s3| |] eqn:Hq; [..|done|done].
      - destruct (H1 _ _ eq_refl) as (_ & [x|e] & _ & ?); done.
      - left. destruct Hm as (-> & _ & Hw). eauto.
      - right. destruct Hm as (-> & Heq & _). split; [done|]. rewrite <- Heq.
        destruct (H1 _ _ eq_refl) as (_ & [x|e'] & Hev & ?); [done|]. (eapply Hdet; [|exact Hev]; done).
      - right. destruct Hm as (-> & Heq & _). split; [done|]. rewrite <- Heq.
        destruct (H2 _ _ eq_refl) as (_ & Hev). (eapply Hdet; [|exact Hev]; done). }
    + assert (∀ w, w ≠ o → w ∈ edits P (OGetMut o f) s s' ↔ w ∈ P ∖ {[o]}) as Hin.
      { intros w Hne. rewrite in_edits, elem_of_difference, elem_of_singleton. split.
        - intros [(? & _)|(_ & ? & [?|?])%in_changed]; [done|congruence..].
        - intros [Hw' _]. left. split; [done|]. rewrite (wr_others _ _ _ _ Hw w Hne), (wr_calls _ _ _ _ Hw).
          destruct (Hk2 w) as [-> ->]; [by apply elem_of_difference; rewrite elem_of_singleton|].
          rewrite Hcl1, Hk1 by done. auto. }
      apply (writes_edit (P ∖ {[o]}) _ (unwound s2) o f); try done.
      * intros u Hu. apply (Hnd1 u). by apply (gt_apart _ _ _ _ G Hc1).
      * apply writes_unwound. by destruct Hw.
      * intros w [(_ & ? & _)|[? _]%in_changed]%in_edits; done.
      * intros Hc. apply in_edits. right. apply in_changed. eauto.
    + apply (edit_inv_same (P ∖ {[o]})); [|done].
      intros w. rewrite in_edits, elem_of_difference, elem_of_singleton. split.
      * intros [Hw' Hne]. left. split; [done|].
        destruct (Hk2 w) as [-> ->]; [by apply elem_of_difference; rewrite elem_of_singleton|].
        rewrite Hcl1, Hk1 by done. auto.
      * intros [(? & Hs & _)|(Hs & f' & Hx)%in_changed].
        -- split; [done|]. intros ->. rewrite Hn in Hs. by destruct Hs.
        -- assert (w = o) as -> by (destruct Hx; congruence). rewrite Hn in Hs. by destruct Hs.
Qed.

Lemma edited_inv P s : edited E P s → edit_inv P s.
Proof.
  induction 1 as [|P s n x s' _ IH Hx Hg].
  - split; try done; [apply Inv_init|..]. 
  - destruct x as [d|w|h w|w f|h w|w f|w|w f|w|w|w| | | |w| ]; try (by eapply plain_edit).
    + by eapply get_mut_edit.
    + by eapply lookup_mut_edit.
Qed.

(** ** Nobody is recorded as depending on itself *)
Lemma evals_no_cycle_at B σ (HB : ∀ o d, B o = Some d → oblivious (bd_body d)) o r u :
  evals B σ o r → rtc (asks B σ) o u → ¬ tc (asks B σ) u u.
Proof.
  intros H Hp. apply acc_irrefl. pose proof (proj1 (evals_acc B σ HB) o r H) as Ha. clear - Hp Ha.
  induction Hp as [|x y z Hxy _ IH]; [done|]. apply IH. by apply Ha.
Qed.
Lemma got_self P s n h o s' u :
  edit_inv P s → (∀ w, ¬ depends s w w) → ends (get E n h o s) s' → ¬ depends s' u u.
Proof.
  intros EI Hs He Hd. destruct (got_edit P n h o s s' EI He) as (G & _ & _). pose proof EI as [I Hst Hp Hh HP].
  destruct (gt_went _ _ _ _ G) as (l & Hl & N).
  apply (prims_depends E s s' l u u I (gt_prims _ _ _ _ G) Hl) in Hd as [?|Hin]; [by apply (Hs u)|].
  apply (nt_resolved _ _ _ _ _ _ (wt_noted _ _ _ _ _ _ _ N)) in Hin as [[Hcall Hasks]|[]].
  destruct (wt_called _ _ _ _ _ _ _ N u Hcall) as (z & -> & Hw). apply wanted_path in Hw.
  set (M := artifacts_of s P) in *.
  destruct (get_edit M n h o s (artifacts_here s P I Hh) Hp HP) as [H1 H2].
  assert (∃ r, ev_at (pin M s') o r) as [r Hr].
  { destruct He as [[rv Hr]|[k Hr]]; [destruct (H1 _ _ Hr) as (_ & x & ? & _)|destruct (H2 _ _ Hr)]; eauto. }
  assert (evals (defs (pin M s)) (config s) o r) as Hev.
  { refine (fits_eval _ _ (pin M s') o r _ Hr). intros w. rewrite pin_config, (gt_config _ _ _ _ G). split; [|done].
    rewrite !pin_def. unfold defs. by rewrite (gt_objs _ _ _ _ G). }
  eapply (evals_no_cycle_at _ _ (λ o d, edited_oblivious M s o d Hp) o r u Hev Hw). by apply tc_once.
Qed.
Lemma edited_self P s : edited E P s → ∀ u, ¬ depends s u u.
Proof.
  induction 1 as [|P s n x s' He IH Hx Hg]; intros u Hu.
  { destruct Hu as (? & ? & ? & ? & ? & _ & Hk & _). done. }
  change (depends s' u u) in Hu. pose proof (edited_inv P s He) as EI. pose proof EI as [I Hst Hp Hh HP].
  assert (∀ F G s1, forgets s F G s1 → ¬ depends s1 u u) as Hfg.
  { intros F G s1 Hf Hd. apply (fg_depends _ _ _ _ Hf) in Hd as (Hd & _). by apply (IH u). }
  assert (∀ l, prims s s' → trace s' = l ++ trace s → EResolve u u ∉ l → False) as Hpr.
  { intros l Hps Hl Hn. apply (prims_depends E s s' l u u I Hps Hl) in Hu as [Hu|?]; [by apply (IH u)|done]. }
  pose proof (step_effect E n x s s' I Hst Hg) as Hef.
  destruct x as [d|w|h w|w f|h w|w f|w|w f|w|w|w| | | |w| ]; cbn [effect_of] in Hef; try (by subst; apply (IH u)).
  - apply (Hpr [] Hef); [|by apply not_elem_of_nil]. unfold goes in Hg. cbn [step] in Hg.
    destruct (alloc E d s) as [[o s1]|] eqn:Ha; [|by gd]. destruct Hg as [[r [= _ <-]]|(? & ? & ?)]; [|done].
    by apply alloc_Some in Ha as (_ & -> & _).
  - apply (Hpr [] Hef); [|by apply not_elem_of_nil]. unfold goes in Hg. cbn [step] in Hg.
    destruct (drop_obj w s) as [s1|] eqn:Ha; [|by gd]. destruct Hg as [[r [= _ <-]]|(? & ? & ?)]; [|done].
    by apply drop_Some in Ha as (_ & _ & ->).
  - apply goes_ends in Hg. eapply got_self; done.
  - destruct (get_mut_start n w f s s' P EI Hg) as (_ & [(_ & Hw & _)|(s1 & _ & EI1 & _ & _ & _ & _ & _ & _ & Hd1 & _ & s2 & Hm)]).
    + apply (wr_depends _ _ _ _ Hw) in Hu. by apply (IH u).
    + assert (ends (get E n HRef w s1) s2) as He2.
      { destruct (get E n HRef w s1) as [[b|v|e] s3|k s3| |]; [..|done|done]; destruct Hm as [-> _]; [left; eauto..|right; eauto]. }
      eapply (got_self _ s1 n HRef w s2 u EI1); [|done|].
      { intros z Hz. by apply (IH z), Hd1. }
      destruct (get E n HRef w s1) as [[b|v|e] s3|k s3| |]; [..|done|done]; try (by destruct Hm as (_ & -> & _)).
      destruct Hm as (_ & _ & Hw). by apply (wr_depends _ _ _ _ Hw) in Hu.
  - destruct Hef as (_ & _ & _ & [[_ Hw]|[_ Hf]]); [|by eapply Hfg]. apply (wr_depends _ _ _ _ Hw) in Hu. by apply (IH u).
  - destruct Hef as (_ & [->|(_ & Hs & _)]); [by apply (IH u)|]. apply (ss_depends _ _ _ _ Hs) in Hu. by apply (IH u).
  - destruct Hef as (_ & s1 & Hf & _ & Hs). apply (ss_depends _ _ _ _ Hs) in Hu. by eapply Hfg.
  - destruct Hef as (_ & Hf & _). by eapply Hfg.
  - destruct Hef as (_ & Hf & _). by eapply Hfg.
  - destruct Hef as (Hf & _). by eapply Hfg.
  - destruct Hef as (Hf & _). by eapply Hfg.
  - destruct Hef as [[Hf _]| ->]; [by eapply Hfg|]. by apply (IH u).
Qed.

(** ** What there is to be computed *)
Lemma edited_fits s P : fits (edited_defs s P) (config s) (pin (artifacts_of s P) s).
Proof. intros o. by rewrite pin_def, pin_config. Qed.
Lemma edited_fits_got s P o s' :
  got (artifacts_of s P) s o s' → fits (edited_defs s P) (config s) (pin (artifacts_of s P) s').
Proof.
  intros G w. rewrite pin_config, (gt_config _ _ _ _ G). split; [|done].
  rewrite pin_def. unfold edited_defs, defs. by rewrite (gt_objs _ _ _ _ G).
Qed.
Lemma edited_defs_oblivious s P o d : all_pure s → edited_defs s P o = Some d → oblivious (bd_body d).
Proof. intros Hp H. eapply (edited_oblivious (artifacts_of s P) s o d Hp). by rewrite pin_def. Qed.
End Runs.
