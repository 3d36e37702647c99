(** Builders that look at the outside world: proofs.  The cache does the same as one whose
    builders are those of [facing]; these are pure, so the invariant of C01 applies. *)
From Verif Require Export WorldSpec MinOrder.
From stdpp Require Import relations.

Definition facing_entry (w : N) (x : bdef * addr) : bdef * addr := (facing_def w x.1, x.2).
Definition tell (w : N) (k : nat) (s : st) : st :=
  St (ch s) (facing_entry w <$> objs s) (alive s) (nobj s) (nbin s) k (stack s) (reent s) (trace s).
Definition tello {A} (w : N) (k : nat) (x : outcome A) : outcome A :=
  match x with
  | Done a s => Done a (tell w k s)
  | Panic p s => Panic p (tell w k s)
  | NoFuel => NoFuel
  | Illegal => Illegal
  end.

Lemma looks_told w p : looks p → pure_prog (facing w p).
Proof. induction p; cbn; auto. Qed.
Definition all_look (s : st) : Prop :=
  ∀ o d a, objs s !! o = Some (d, a) → looks (bd_body d) ∧ ∀ w, oblivious (facing w (bd_body d)).
Lemma all_look_objs s s' : objs s' = objs s → all_look s → all_look s'.
Proof. intros H Hl o d a. rewrite H. apply Hl. Qed.

Section Tell.
Context (E : env) (w : N).

Lemma tell_objs k s o : objs (tell w k s) !! o = facing_entry w <$> objs s !! o.
Proof. cbn. apply lookup_fmap. Qed.
Lemma tell_addr k s o d a : objs s !! o = Some (d, a) → objs (tell w k s) !! o = Some (facing_def w d, a).
Proof. intros H. by rewrite tell_objs, H. Qed.
Lemma tell_addr_inv k s o d' a : objs (tell w k s) !! o = Some (d', a) → ∃ d, objs s !! o = Some (d, a) ∧ d' = facing_def w d.
Proof. rewrite tell_objs. destruct (objs s !! o) as [[d a']|]; [|done]. cbn. intros [= <- <-]. eauto. Qed.
Lemma told_fields d : bd_aty (facing_def w d) = bd_aty d ∧ bd_sty (facing_def w d) = bd_sty d ∧ bd_init (facing_def w d) = bd_init d.
Proof. by destruct d. Qed.
Lemma told_body d : bd_body (facing_def w d) = facing w (bd_body d).
Proof. by destruct d. Qed.

Lemma tell_cached k s o : cached (tell w k s) o = cached s o.
Proof. unfold cached. rewrite tell_objs. by destruct (objs s !! o) as [[d a]|]. Qed.
Lemma tell_state k s o : state_of (tell w k s) o = state_of s o.
Proof. unfold state_of. rewrite tell_objs. by destruct (objs s !! o) as [[d a]|]. Qed.
Lemma tell_initial k s o : initial (tell w k s) o = initial s o.
Proof. unfold initial. rewrite tell_objs. destruct (objs s !! o) as [[d a]|]; [|done]. cbn. apply told_fields. Qed.
Lemma tell_config k s o : config (tell w k s) o = config s o.
Proof. unfold config. by rewrite tell_state, tell_initial. Qed.
Lemma tell_defs k s o : defs (tell w k s) o = facing_defs s w o.
Proof. unfold facing_defs, defs. rewrite tell_objs. by destruct (objs s !! o) as [[d a]|]. Qed.
Lemma tell_depends k s u v : depends (tell w k s) u v ↔ depends s u v.
Proof.
  split.
  - intros (du & ua & dw & wa & X & H1 & H2 & H3 & H4 & H5 & H6).
    apply tell_addr_inv in H1 as (? & H1 & _). apply tell_addr_inv in H3 as (? & H3 & _). repeat eexists; eauto.
  - intros (du & ua & dw & wa & X & H1 & H2 & H3 & H4 & H5 & H6).
    apply (tell_addr k) in H1. apply (tell_addr k) in H3. repeat eexists; eauto.
Qed.
Lemma tell_promise k s o : promise o (tell w k s) = facing_entry w <$> promise o s.
Proof. unfold promise. cbn [alive tell]. destruct (bool_decide _); [|done]. apply tell_objs. Qed.

Lemma tell_Inv k s : Inv s → Inv (tell w k s).
Proof.
  intros [IC I2 I3 I4 I5]. split.
  - destruct IC as [C1 C2 C3 C4 C5 C6 C7 C8]. split; try done.
    + intros a o Hk. destruct (C6 a o Hk) as [d Hd]. eexists. by apply tell_addr.
    + intros a e o d' He Hk Ho. apply tell_addr_inv in Ho as (d & Ho & ->).
      destruct (told_fields d) as (-> & _). by eapply C7.
    + intros a e o d' He Hk Ho. apply tell_addr_inv in Ho as (d & Ho & ->).
      destruct (told_fields d) as (_ & -> & _). by eapply C8.
  - intros o x. rewrite tell_objs. destruct (objs s !! o) eqn:Ho; [|done]. intros _. by eapply I2.
  - intros o Ho. rewrite tell_objs. destruct (I3 o Ho) as [x ->]. eauto.
  - intros o o' d d' a Hp Hp' Ho Ho'. apply tell_addr_inv in Ho as (? & Ho & _). apply tell_addr_inv in Ho' as (? & Ho' & _).
    exact (I4 o o' _ _ a Hp Hp' Ho Ho').
  - intros o Ho. destruct (I5 o Ho) as (H1 & d & a & H2 & H3). split; [done|]. eexists _, a. split; [by apply tell_addr|done].
Qed.

(** ** Programs that only look make no builders, and time goes on *)
Definition bld_keeps (bld : obj → st → outcome bres) : Prop :=
  ∀ o s s', all_look s → ends (bld o s) s' → objs s' = objs s ∧ tick s ≤ tick s'.
Lemma get_with_keeps bld h o s s' :
  bld_keeps bld → all_look s → ends (get_with E bld h o s) s' → objs s' = objs s ∧ tick s ≤ tick s'.
Proof.
  intros Hb Hl. unfold get_with. destruct (promise o s) as [[d a]|]; [|by intros [[? ?]|[? ?]]].
  destruct (how_legal E h); [|by intros [[? ?]|[? ?]]].
  destruct (lookup_art _ _ _ _) as [k| |b].
  - by intros [[? ?]|[? [= _ <-]]].
  - pose proof (Hb o s) as H. destruct (bld o s) as [[e|e] s1|k s1| |]; [..|by intros [[? ?]|[? ?]]|by intros [[? ?]|[? ?]]].
    + destruct (_ =? _)%N; [intros [[? [= _ <-]]|[? ?]]|intros [[? ?]|[? [= _ <-]]]]; try done; (apply H; [done|left; eauto]).
    + intros [[? [= _ <-]]|[? ?]]; [|done]. apply H; [done|left; eauto].
    + intros [[? ?]|[? [= _ <-]]]; [done|]. apply H; [done|right; eauto].
  - by intros [[? [= _ <-]]|[? ?]].
Qed.
Lemma exec_keeps bld u ua t :
  bld_keeps bld → ∀ p s s', looks p → all_look s → ends (exec E bld u ua t p s) s' → objs s' = objs s ∧ tick s ≤ tick s'.
Proof.
  intros Hb p. induction p as [r| |h v k IH|k IH|v' p IH|k IH|v' k IH|d k IH|v p IH]; intros s s' Hp Hl; cbn [exec looks] in *; try done.
  - by intros [[? [= _ <-]]|[? ?]].
  - by intros [[? ?]|[? [= _ <-]]].
  - unfold resolve_with. destruct (promise v s) as [[d wa]|]; [|by intros [[? ?]|[? ?]]].
    destruct (track_dependency _ _ _ _ _) as [c|pk c|]; [|by intros [[? ?]|[? [= _ <-]]]|by intros [[? ?]|[? ?]]].
    set (s1 := log (EResolve u v) (set_ch c s)). pose proof (get_with_keeps bld h v s1) as H.
    destruct (get_with E bld h v s1) as [rv s2|pk s2| |]; [..|by intros [[? ?]|[? ?]]|by intros [[? ?]|[? ?]]].
    + destruct (H s2 Hb Hl) as [H1 H2]; [left; eauto|]. intros He. apply IH in He as [-> He]; [|done|by eapply all_look_objs].
      cbn in *. split; [done|lia].
    + intros [[? ?]|[? [= _ <-]]]; [done|]. apply (H s2 Hb Hl). right. eauto.
  - destruct (my_state _ _ _ _); [by intros [[? ?]|[? [= _ <-]]]|]. by apply IH.
  - intros He. apply IH in He as [-> He]; [|done|done]. cbn in *. split; [done|lia].
  - intros He. apply IH in He; done.
Qed.
Lemma build_keeps n : bld_keeps (build E n).
Proof.
  induction n as [|n IH]; intros o s s' Hl; [by intros [[? ?]|[? ?]]|]. cbn [build].
  destruct (promise o s) as [[[aty sty init body] a]|] eqn:Hp; [|by intros [[? ?]|[? ?]]].
  destruct (_ && _); [by intros [[? ?]|[? [= _ <-]]]|].
  destruct (ensure_dyn_state _ _ _ _ _) as [c2 [k|v]]; [by intros [[? ?]|[? [= _ <-]]]|].
  set (s1 := log (ECall o) _). apply promise_Some in Hp as [_ Ho].
  pose proof (exec_keeps (build E n) o a sty IH body s1) as H.
  destruct (Hl o _ a Ho) as [Hb _]. cbn [bd_body] in Hb.
  destruct (exec E (build E n) o a sty body s1) as [[b|e] s2|k s2| |]; [..|by intros [[? ?]|[? ?]]|by intros [[? ?]|[? ?]]].
  - destruct (H s2 Hb Hl) as [H1 H2]; [left; eauto|]. cbn [artifacts set_artifacts]. rewrite lookup_insert.
    by intros [[? [= _ <-]]|[? ?]].
  - destruct (H s2 Hb Hl) as [H1 H2]; [left; eauto|]. by intros [[? [= _ <-]]|[? ?]].
  - destruct (H s2 Hb Hl) as [H1 H2]; [right; eauto|]. by intros [[? ?]|[? [= _ <-]]].
Qed.

(** ** Both do the same, if the world answers [w] *)
Definition heard {A} (s : st) (x : outcome A) : Prop :=
  ∀ t, tick s ≤ t → match x with Done _ s' | Panic _ s' => t < tick s' | _ => True end → e_ask E t = w.
Lemma heard_same {A B} s s' (x : outcome A) (y : outcome B) :
  heard s x → tick s ≤ tick s' →
  match x, y with
  | (Done _ s1 | Panic _ s1), (Done _ s2 | Panic _ s2) => tick s2 ≤ tick s1
  | (NoFuel | Illegal), _ => True
  | _, (NoFuel | Illegal) => False
  end → heard s' y.
Proof.
  intros H Ht Hxy t Ht' Hy. apply H; [lia|]. destruct x, y; try done; lia.
Qed.
Definition bld_told (bld : obj → st → outcome bres) : Prop :=
  ∀ o s k, all_look s → heard s (bld o s) → bld o (tell w k s) = tello w k (bld o s).

Lemma get_with_told bld h o s k :
  bld_told bld → all_look s → heard s (get_with E bld h o s) →
  get_with E bld h o (tell w k s) = tello w k (get_with E bld h o s).
Proof.
  intros Hb Hl. unfold get_with. rewrite tell_promise. destruct (promise o s) as [[d a]|] eqn:Hp; [|done].
  cbn [fmap option_fmap option_map facing_entry fst snd]. destruct (how_legal E h); [|done].
  destruct (told_fields d) as (-> & _). cbn [ch tell].
  destruct (lookup_art _ _ _ _) as [pk| |b]; [done| |done]. intros Hh.
  rewrite (Hb o s k Hl).
  - destruct (bld o s) as [[e|e] s1|pk s1| |]; try done. cbn. by destruct (_ =? _)%N.
  - eapply heard_same; [exact Hh|done|]. destruct (bld o s) as [[e|e] s1|pk s1| |]; try done. by destruct (_ =? _)%N.
Qed.

Lemma exec_told bld u ua t :
  bld_keeps bld → bld_told bld → ∀ p s k, looks p → all_look s → heard s (exec E bld u ua t p s) →
  exec E bld u ua t (facing w p) (tell w k s) = tello w k (exec E bld u ua t p s).
Proof.
  intros Hk Hb p.
  induction p as [r| |h v k IH|k IH|v' p IH|k IH|v' k IH|d k IH|v p IH]; intros s j Hp Hl Hh; cbn [exec looks facing] in *; try done.
  - unfold resolve_with in *. rewrite tell_promise. destruct (promise v s) as [[d wa]|] eqn:Hpr; [|done].
    cbn [fmap option_fmap option_map facing_entry fst snd ch tell] in *.
    destruct (track_dependency _ _ _ _ _) as [c|pk c|]; [|done..].
    set (s1 := log (EResolve u v) (set_ch c s)) in *.
    change (log (EResolve u v) (set_ch c (tell w j s))) with (tell w j s1).
    pose proof (get_with_keeps bld h v s1) as HK.
    assert (heard s1 (get_with E bld h v s1)) as Hh1.
    { eapply heard_same; [exact Hh|done|]. destruct (get_with E bld h v s1) as [rv s2|pk s2| |]; try done.
      destruct (HK s2 Hk Hl) as [Ho2 Ht2]; [left; eauto|].
      set (s3 := log (EGot u v rv) s2) in *. pose proof (exec_keeps bld u ua t Hk (k rv) s3) as HX.
      assert (all_look s3) as Hl3 by (by eapply all_look_objs).
      destruct (exec E bld u ua t (k rv) s3) as [r4 s4|pk s4| |]; try done.
      - apply (HX s4); [done|done|left; eauto].
      - apply (HX s4); [done|done|right; eauto]. }
    rewrite (get_with_told bld h v s1 j Hb Hl Hh1).
    destruct (get_with E bld h v s1) as [rv s2|pk s2| |]; try done. cbn [tello].
    destruct (HK s2 Hk Hl) as [Ho2 Ht2]; [left; eauto|].
    change (log (EGot u v rv) (tell w j s2)) with (tell w j (log (EGot u v rv) s2)).
    apply IH; [done|by eapply all_look_objs|]. eapply heard_same; [exact Hh|exact Ht2|].
    by destruct (exec E bld u ua t (k rv) (log (EGot u v rv) s2)).
  - cbn [ch tell]. destruct (my_state _ _ _ _); [done|]. by apply IH.
  - assert (e_ask E (tick s) = w) as Hw.
    { apply Hh; [done|]. pose proof (exec_keeps bld u ua t Hk (k (e_ask E (tick s))) (tock s)) as HX.
      destruct (exec E bld u ua t (k (e_ask E (tick s))) (tock s)) as [r4 s4|pk s4| |]; try done.
      - apply (HX s4); [done|done|left; eauto].
      - apply (HX s4); [done|done|right; eauto]. }
    rewrite Hw in *. apply (IH w (tock s)); [done|done|]. eapply heard_same; [exact Hh|cbn; lia|].
    by destruct (exec E bld u ua t (k w) (tock s)).
  - apply (IH (Bin (nbin s) v') (set_nbin (N.succ (nbin s)) s)); done.
Qed.
Lemma build_told n : bld_told (build E n).
Proof.
  induction n as [|n IH]; intros o s k Hl Hh; [done|]. cbn [build] in *. rewrite tell_promise.
  destruct (promise o s) as [[[aty sty init body] a]|] eqn:Hp; [|done].
  cbn [fmap option_fmap option_map facing_entry fst snd facing_def ch tell] in *.
  destruct (_ && _); [done|].
  destruct (ensure_dyn_state _ _ _ _ _) as [c2 [pk|v]]; [done|].
  set (s1 := log (ECall o) (set_reent (reent s || bool_decide (o ∈ stack s)) (set_stack (o :: stack s) (set_ch c2 s)))) in *.
  change (log (ECall o) _) with (tell w k s1) at 1.
  apply promise_Some in Hp as [_ Ho]. destruct (Hl o _ a Ho) as [Hb _]. cbn [bd_body] in Hb.
  rewrite (exec_told (build E n) o a sty (build_keeps n) IH body s1 k Hb Hl).
  - destruct (exec E (build E n) o a sty body s1) as [[b|e] s2|pk s2| |]; try done. cbn [tello ch tell].
    cbn [artifacts set_artifacts]. by rewrite lookup_insert.
  - eapply heard_same; [exact Hh|done|]. destruct (exec E (build E n) o a sty body s1) as [[b|e] s2|pk s2| |]; try done.
    cbn [artifacts set_artifacts]. by rewrite lookup_insert.
Qed.
Lemma get_told n h o s k : all_look s → heard s (get E n h o s) → get E n h o (tell w k s) = tello w k (get E n h o s).
Proof. apply get_with_told, build_told. Qed.

(** ** The other calls *)
Lemma tell_alloc d s : alloc E (facing_def w d) (tell w (tick s) s) = (λ x, (x.1, tell w (tick x.2) x.2)) <$> alloc E d s.
Proof.
  unfold alloc. change (tick (tell w (tick s) s)) with (tick s). change (ch (tell w (tick s) s)) with (ch s).
  change (alive (tell w (tick s) s)) with (alive s). change (nobj (tell w (tick s) s)) with (nobj s).
  match goal with |- context [if @bool_decide ?X ?DX || _ then None else Some (nobj s, St _ (<[_:=_]> (objs (tell w (tick s) s))) _ _ _ _ _ _ _)] =>
    match goal with |- context [_ <$> (if @bool_decide ?Y ?DY || _ then _ else _)] =>
      assert (@bool_decide X DX = @bool_decide Y DY) as Heq end end.
  { apply bool_decide_ext. split; intros (o & Ho & Hx); exists o; split; try done; revert Hx; rewrite tell_objs;
      by destruct (objs s !! o) as [[? ?]|]. }
  rewrite Heq. destruct (_ || _); [done|]. cbn. do 2 f_equal. unfold tell. cbn. f_equal.
  by rewrite fmap_insert.
Qed.
Definition told_op (x : op) : op := match x with OAlloc d => OAlloc (facing_def w d) | _ => x end.
Definition tello' {A} (x : outcome A) : outcome A :=
  match x with
  | Done a s => Done a (tell w (tick s) s)
  | Panic p s => Panic p (tell w (tick s) s)
  | NoFuel => NoFuel
  | Illegal => Illegal
  end.
Lemma step_told n x s :
  match x with OGet _ _ | OGetMut _ _ | OLookupMut _ _ => False | _ => True end →
  step E n (told_op x) (tell w (tick s) s) = tello' (step E n x s).
Proof.
  intros Hx. destruct x as [d|o|h o|o f|h o|o f|o|o f|o|o|o| | | |o| ]; try done; cbn [step told_op].
  - rewrite (tell_alloc d s). by destruct (alloc E d s) as [[o s1]|].
  - unfold drop_obj. cbn [tell alive stack]. by destruct (_ && _).
  - rewrite tell_promise. destruct (promise o s) as [[d a]|]; [|done]. cbn [fmap option_fmap option_map facing_entry fst snd].
    destruct (how_legal E h); [|done]. destruct (told_fields d) as (-> & _). cbn [ch tell].
    by destruct (lookup_art _ _ _ _).
  - rewrite tell_promise. destruct (promise o s) as [[d a]|]; [|done]. cbn [fmap option_fmap option_map facing_entry fst snd].
    destruct (told_fields d) as (_ & -> & ->). cbn [ch tell]. by destruct (ensure_dyn_state _ _ _ _ _) as [? [?|?]].
  - rewrite tell_promise. destruct (promise o s) as [[d a]|]; [|done]. cbn [fmap option_fmap option_map facing_entry fst snd].
    destruct (told_fields d) as (_ & -> & ->). unfold prio. cbn [ch tell tick].
    destruct (invalidate_by_id _ _ _ _) as [c|k c|]; [|done..]. cbn [ch log tock set_ch].
    by destruct (ensure_dyn_state _ _ _ _ _) as [? [?|?]].
  - rewrite tell_promise. destruct (promise o s) as [[d a]|]; [|done]. cbn [fmap option_fmap option_map facing_entry fst snd].
    destruct (told_fields d) as (_ & -> & _). cbn [ch tell]. by destruct (get_dyn_state _ _ _ _).
  - rewrite tell_promise. destruct (promise o s) as [[d a]|]; [|done]. cbn [fmap option_fmap option_map facing_entry fst snd].
    unfold prio. cbn [ch tell tick]. by destruct (invalidate_by_id _ _ _ _).
  - rewrite tell_promise. destruct (promise o s) as [[d a]|]; [|done]. cbn [fmap option_fmap option_map facing_entry fst snd].
    unfold prio. cbn [ch tell tick]. by destruct (purge _ _ _ _).
  - unfold prio. cbn [ch tell tick alive]. by destruct (garbage_collection _ _ _ _).
  - rewrite tell_promise. by destruct (promise o s) as [[d a]|].
Qed.
End Tell.

(** ** When the world changes *)
Lemma evD_recode (D : obj → obj → Prop) B B' σ σ' (F : obj → Prop) :
  (∀ u w, D u w → F w → F u) →
  (∀ o d, ¬ F o → B o = Some d → σ' o = σ o ∧ ∃ d', B' o = Some d' ∧ same_code (bd_body d) (bd_body d')) →
  (∀ o r, evD D B σ o r → ¬ F o → evD D B' σ' o r) ∧
  (∀ u v p r, evD_body D B σ u v p r → ¬ F u → ∀ q, same_code p q → evD_body D B' σ' u v q r).
Proof.
  intros Hcl HB.
  apply (evD_both D B σ (λ o r _, ¬ F o → evD D B' σ' o r)
    (λ u v p r _, ¬ F u → ∀ q, same_code p q → evD_body D B' σ' u v q r)).
  - intros o d HBo Hσ HF. destruct (HB o d HF HBo) as (Hs & d' & Hd & _). eapply evd_noinit; [done|congruence].
  - intros o d v r HBo Hσ _ IH HF. destruct (HB o d HF HBo) as (Hs & d' & Hd & Hc). eapply (evd_body _ _ _ o d' v); [done|congruence|]. auto.
  - intros u v r HF q Hq. inversion Hq; subst. constructor.
  - intros u v HF q Hq. inversion Hq; subst. constructor.
  - intros u v h w k x r HD _ IH1 _ IH2 HF q Hq. inversion Hq; subst. eapply ebd_resolve; [done|eauto|]. auto.
  - intros u v h w k HD _ IH1 HF q Hq. inversion Hq; subst. eapply ebd_resolve_panic; [done|eauto].
  - intros u v k r _ IH HF q Hq. inversion Hq; subst. constructor. auto.
  - intros u v x k p r _ IH HF q Hq. inversion Hq; subst. eapply ebd_newbin. eauto.
Qed.

Lemma same_code_refl p : pure_prog p → same_code p p.
Proof. induction p; cbn; intros; try done; constructor; auto. Qed.

(** ** Histories *)
Section Runs.
Context (E : env).
Record world_inv (w : N) (s : st) : Prop := {
  wo_inv : Inv s;
  wo_stack : stack s = [];
  wo_look : all_look s;
  wo_coh : pureinv (tell w (tick s) s);
}.
Lemma tell_pureinv w k k' s : pureinv (tell w k s) → pureinv (tell w k' s).
Proof. intros H. by apply (pureinv_ext (tell w k s)). Qed.

Lemma hears_heard {A} w s (x : outcome A) s' : ends x s' → hears E w s s' → heard E w s x.
Proof. intros [[a ->]|[k ->]] H t Ht1 Ht2; apply H; lia. Qed.
Lemma goes_ends n h o s s' : goes (step E n (OGet h o) s) s' → ends (get E n h o s) s'.
Proof.
  unfold goes. cbn [step]. destruct (get E n h o s) as [r s1|k s1| |]; [| |by intros [[? ?]|(? & ? & ?)]..].
  - intros [[? [= _ <-]]|(? & ? & ?)]; [|done]. left. eauto.
  - intros [[? ?]|(? & [= _ <-] & ?)]; [done|]. right. eauto.
Qed.

(** What a request does. *)
Lemma get_world w n h o s s' :
  world_inv w s → ends (get E n h o s) s' → hears E w s s' →
  pureinv (tell w (tick s) s') ∧ objs s' = objs s ∧ (∀ v, config s' v = config s v) ∧
  (∀ rv, get E n h o s = Done rv s' → ∃ x, ev_at (tell w (tick s) s') o (EvRet x) ∧ rv = handed h x) ∧
  (∀ k, get E n h o s = Panic k s' → ev_at (tell w (tick s) s') o EvPanic).
Proof.
  intros [I Hst Hl HP] He Hh. pose proof (hears_heard w s _ s' He Hh) as Hd.
  pose proof (get_told E w n h o s (tick s) Hl Hd) as Hg.
  pose proof (get_pure E n h o (tell w (tick s) s) (tell_Inv w _ s I) HP) as [H1 H2]. rewrite Hg in H1, H2.
  assert (objs s' = objs s) as Ho by (by apply (get_with_keeps E (build E n) h o s s' (build_keeps E n))).
  destruct He as [[rv Hr]|[k Hr]]; rewrite Hr in *; cbn [tello] in *.
  - destruct (H1 _ _ eq_refl) as (A1 & (G1 & G2 & G3) & A3). split_and!; try done.
    + intros v. specialize (G2 v). by rewrite !tell_config in G2.
    + by intros rv' [= <-].
  - destruct (H2 _ _ eq_refl) as (A1 & (G1 & G2 & G3) & A3). split_and!; try done.
    intros v. specialize (G2 v). by rewrite !tell_config in G2.
Qed.

Lemma world_step w n x s s' :
  world_inv w s → looking_op x → goes (step E n x s) s' → match x with OGet _ _ => hears E w s s' | _ => True end →
  world_inv w (unwound s').
Proof.
  intros WI Hx Hg Hh. pose proof WI as [I Hst Hl HP].
  assert (Inv (unwound s')) as I' by (by eapply goes_Inv).
  assert (match x with OGet _ _ | OGetMut _ _ | OLookupMut _ _ => False | _ => True end ∨ ∃ h o, x = OGet h o) as [Hp|(h & o & ->)].
  { destruct x; eauto. }
  - assert (goes (step E n (told_op w x) (tell w (tick s) s)) (tell w (tick s') s')) as Hg'.
    { rewrite (step_told E w n x s Hp). destruct Hg as [[r ->]|(k & -> & Hk)]; [left; eexists|right; exists k]; done. }
    split; [done|done| |].
    + assert (objs s' = objs s → all_look s') as Ho by (intros Ho; by eapply all_look_objs).
      destruct x as [d|v|h v|v f|h v|v f|v|v f|v|v|v| | | |v| ]; try (by destruct Hp);
        try (apply Ho; eapply (step_objs E n _ s s' I Hst); [|..|exact Hg]; [exact Logic.I|discriminate]).
      unfold goes in Hg. cbn [step] in Hg. destruct (alloc E d s) as [[o s1]|] eqn:Ha; [|by gd].
      destruct Hg as [[r [= _ <-]]|(? & ? & ?)]; [|done].
      apply alloc_Some in Ha as (-> & -> & _). intros v d' a. cbn.
      intros [[_ [= <- _]]|[_ Hw]]%lookup_insert_Some; [done|by eapply Hl].
    + apply (tell_pureinv w (tick s')).
      change (pureinv (unwound (tell w (tick s') s'))).
      eapply (step_pure E n (told_op w x) (tell w (tick s) s)); [by apply tell_Inv|done| |done|done].
      destruct x; try done. cbn. rewrite told_body. apply looks_told, Hx.
  - apply goes_ends in Hg. destruct (get_world w n h o s s' WI Hg Hh) as (A1 & A2 & _).
    split; [done|done|by eapply all_look_objs|]. by apply (pureinv_ext (tell w (tick s) s')).
Qed.

Lemma world_change w w' s :
  world_inv w s → (∀ o d, defs s o = Some d → unnoticed w w' d ∨ ∀ u, affected s o u → cached s u = None) → world_inv w' s.
Proof.
  intros [I Hst Hl HP] Hn. split; try done. split.
  - intros o d a Ho. apply tell_addr_inv in Ho as (d0 & Ho & ->). rewrite told_body. by eapply looks_told, Hl.
  - intros u b. rewrite tell_cached. intros Hu. destruct HP as [_ HP]. specialize (HP u b). rewrite tell_cached in HP. specialize (HP Hu).
    unfold ok_art in *.
    set (F := λ x, ∃ o, (∀ y, affected s o y → cached s y = None) ∧ affected s o x).
    assert (¬ F u) as HF by (intros (o & H1 & H2); rewrite (H1 u H2) in Hu; done).
    refine (proj1 (evD_change (depends (tell w (tick s) s)) (depends (tell w' (tick s) s)) (facing_defs s w') (defs (tell w' (tick s) s))
      (config s) (config (tell w' (tick s) s)) (λ _, False) _ _ _ _) u _ _ _); try done.
    + intros x y. by rewrite !tell_depends.
    + intros o d _. by rewrite tell_defs.
    + intros o d _ _. apply tell_config.
    + refine (proj1 (evD_recode (depends (tell w (tick s) s)) (defs (tell w (tick s) s)) (facing_defs s w') (config (tell w (tick s) s)) (config s) F _ _) u _ HP HF).
      * intros x y. rewrite tell_depends. intros Hd (o & H1 & H2). exists o. split; [done|]. by eapply rtc_r.
      * intros o d HFo. rewrite tell_defs, tell_config. unfold facing_defs. destruct (defs s o) as [d0|] eqn:Hd; [|done]. cbn.
        intros [= <-]. split; [done|]. eexists. split; [done|]. rewrite !told_body.
        destruct (Hn o d0 Hd) as [?|H]; [done|]. destruct HFo. exists o. split; [done|apply rtc_refl].
    + by intros [].
Qed.

Lemma informed_inv w s : informed E w s → world_inv w s.
Proof.
  induction 1 as [w|w s n x s' _ IH Hx Hg Hh|w w' s _ IH Hn].
  - split; [apply Inv_init|done| |].
    + intros o d a. cbn. by rewrite lookup_empty.
    + split; [|by intros u b].
      intros o d a. cbn. by rewrite lookup_fmap, lookup_empty.
  - by eapply world_step.
  - by eapply world_change.
Qed.
Lemma facing_oblivious w s o d : all_look s → facing_defs s w o = Some d → oblivious (bd_body d).
Proof.
  intros H. unfold facing_defs, defs. destruct (objs s !! o) as [[d' a]|] eqn:Ho; [|done]. cbn. intros [= <-].
  rewrite told_body. by eapply H.
Qed.
Lemma facing_fits w k s : fits (facing_defs s w) (config s) (tell w k s).
Proof. intros o. by rewrite tell_defs, tell_config. Qed.
End Runs.
