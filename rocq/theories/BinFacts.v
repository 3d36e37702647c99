(** Facts for C56: an invariant about all bins in a state. *)
From Verif Require Export BinSpec.
From Verif Require Import Facts1.
From stdpp Require Import relations.

(** Programs all of whose artifacts are put into a bin right before returning. *)
Fixpoint mints (p : prog) : Prop :=
  match p with
  | PRet (Ok _) => False
  | PRet (Err _) | PPanic => True
  | PResolve h w k => ∀ r, mints (k r)
  | PState k => ∀ v, mints (k v)
  | PSetState _ p | PDrop _ p => mints p
  | PAsk k => ∀ n, mints (k n)
  | PNewBin v k => (∀ i, k (Bin i v) = PRet (Ok (Bin i v))) ∨ ∀ b, mints (k b)
  | PNew _ k => ∀ o, mints (k o)
  end.
Definition mints_def (d : bdef) : Prop := mints (bd_body d).
Lemma own_bin_mints d : own_bin d → mints_def d.
Proof.
  intros [(aty & sty & w & ->)|[(aty & sty & v & ->)|(aty & sty & p & ->)]]; unfold mints_def; cbn.
  - intros [|v|]; cbn; [done| |done]. by left.
  - intros v0. by left.
  - induction p as [v| |h w k IH|k IH|v k IH|d k IH|w p IH]; cbn; try done; try (by left). right. intros. apply IH.
Qed.

Scheme prog_ind2 := Induction for prog Sort Prop
with bdef_ind2 := Induction for bdef Sort Prop.

Lemma unforged_mono p : ∀ X Y : bin → Prop, (∀ b, X b → Y b) → unforged X p → unforged Y p.
Proof.
  apply (prog_ind2 (λ p, ∀ X Y : bin → Prop, (∀ b, X b → Y b) → unforged X p → unforged Y p)
                   (λ d, ∀ X Y : bin → Prop, (∀ b, X b → Y b) → unforged_def X d → unforged_def Y d));
    clear p; cbn [unforged unforged_def].
  - intros r X Y HXY H b Hb. auto.
  - done.
  - intros h w k IH X Y HXY H r. eapply IH; [|apply H]. cbn. intros b [?|?]; auto.
  - intros k IH X Y HXY H r. eapply IH; [|apply H]. cbn. intros b [?|?]; auto.
  - intros v p IH X Y HXY [H1 H2]. split; [auto|]. eapply IH; eauto.
  - intros k IH X Y HXY H n. eapply IH; [|apply H]. auto.
  - intros v k IH X Y HXY [H1 H2]. split; [auto|]. intros i. eapply IH; [|apply H2]. cbn. intros b [?|?]; auto.
  - intros d IHd k IH X Y HXY [H1 H2]. split; [by eapply IHd; [|exact H1]|]. intros o. eapply IH; [|apply H2]. auto.
  - intros w p IH X Y HXY H. eapply IH; eauto.
  - intros aty sty init p IH X Y HXY [H1 H2]. split; [eauto|]. eapply IH; eauto.
Qed.
Lemma unforged_def_mono d (X Y : bin → Prop) : (∀ b, X b → Y b) → unforged_def X d → unforged_def Y d.
Proof.
  destruct d as [aty sty init p]. cbn. intros HXY [H1 H2]. split; [eauto|]. by eapply unforged_mono.
Qed.

Lemma inside_trans b c v : inside c v → inside b (bin_val c) → inside b v.
Proof.
  induction v as [| | |p v IH| |v IH|v IHv w IHw]; cbn; try done.
  - intros [->|H] Hb; cbn in *; auto.
  - intros [H|H] Hb; auto.
Qed.

(** The trace never shows a bin before the builder that minted it has it. *)
Definition minted (s : st) : Prop :=
  ∀ l1 u b l2 d a, trace s = l1 ++ EBuilt u b :: l2 → objs s !! u = Some (d, a) → mints_def d →
    ∀ e c, e ∈ l2 → in_event c e → bin_ptr c ≠ bin_ptr b.

Record good (X : bin → Prop) (n : N) (s : st) : Prop := {
  gd_id : ∀ b c, X b → X c → bin_ptr b = bin_ptr c → b = c;
  gd_lt : ∀ b, X b → (bin_ptr b < n)%N;
  gd_in : ∀ b c, X c → inside b (bin_val c) → X b;
  gd_art : ∀ a e, artifacts (ch s) !! a = Some e → X (ar_bin e);
  gd_dyn : ∀ a d b, dyn_states (ch s) !! a = Some d → inside b (ds_val d) → X b;
  gd_obj : ∀ o d a, objs s !! o = Some (d, a) → unforged_def X d;
  gd_ev : ∀ e b, e ∈ trace s → in_event b e → X b;
  gd_new : minted s;
  gd_num : ∀ o x, objs s !! o = Some x → (o < nobj s)%N;
  gd_blt : ∀ u b, EBuilt u b ∈ trace s → is_Some (objs s !! u);
}.
Notation fine X s := (good X (nbin s) s).

Lemma good_in_bin X n s b c : good X n s → X c → in_bin b c → X b.
Proof. intros G Hc [->|Hb]; [done|]. by eapply gd_in. Qed.

(** States with the same contents. *)
Lemma good_same X n s s' :
  good X n s → artifacts (ch s') = artifacts (ch s) → dyn_states (ch s') = dyn_states (ch s) →
  objs s' = objs s → trace s' = trace s → nobj s' = nobj s → good X n s'.
Proof.
  intros [] Ha Hd Ho Ht Hn. split; rewrite ?Ha, ?Hd, ?Ho, ?Ht, ?Hn; try done.
  unfold minted. rewrite Ht, Ho. done.
Qed.
(** States with less contents. *)
Lemma good_less X n s s' :
  good X n s → artifacts (ch s') ⊆ artifacts (ch s) → dyn_states (ch s') ⊆ dyn_states (ch s) →
  objs s' = objs s → trace s' = trace s → nobj s' = nobj s → good X n s'.
Proof.
  intros [] Ha Hd Ho Ht Hn. split; rewrite ?Ho, ?Ht, ?Hn; try done.
  - intros a e He. eapply gd_art0, lookup_weaken; eauto.
  - intros a e b He. eapply gd_dyn0, lookup_weaken; eauto.
  - unfold minted. rewrite Ht, Ho. done.
Qed.
Lemma good_log X n s e :
  good X n s → (∀ b, in_event b e → X b) →
  (∀ u b d a, e = EBuilt u b → objs s !! u = Some (d, a) → mints_def d →
     ∀ e c, e ∈ trace s → in_event c e → bin_ptr c ≠ bin_ptr b) →
  (∀ u b, e = EBuilt u b → is_Some (objs s !! u)) →
  good X n (log e s).
Proof.
  intros [] He Hn Hu. split; try done; cbn.
  - intros e0 b [->|Hin]%elem_of_cons; eauto.
  - intros [|e1 l1] u b l2 d a Ht Ho Hm; cbn in Ht; injection Ht as -> Ht.
    + subst l2. by eapply Hn.
    + by eapply gd_new0.
  - intros u b [<-|Hin]%elem_of_cons; eauto.
Qed.
Lemma good_log_other X n s e :
  good X n s → (∀ b, in_event b e → X b) → (∀ u b, e ≠ EBuilt u b) → good X n (log e s).
Proof.
  intros G He Hne. apply good_log; [done..| |].
  - intros u b d a ->. by destruct (Hne u b).
  - intros u b ->. by destruct (Hne u b).
Qed.
Lemma good_le X n m s : good X n s → (n ≤ m)%N → good X m s.
Proof. intros [] Hle. split; try done. intros b Hb. specialize (gd_lt0 b Hb). lia. Qed.

(** A new bin. *)
Lemma good_newbin X s v :
  fine X s → (∀ b, inside b v → X b) →
  fine (λ b, X b ∨ b = Bin (nbin s) v) (set_nbin (N.succ (nbin s)) s).
Proof.
  intros G Hv. destruct G. split; cbn.
  - intros b c [Hb| ->] [Hc| ->] Hp; cbn in *; auto.
    + specialize (gd_lt0 b Hb). lia.
    + specialize (gd_lt0 c Hc). lia.
  - intros b [Hb| ->]; cbn; [|lia]. specialize (gd_lt0 b Hb). lia.
  - intros b c [Hc| ->] Hb; left; eauto.
  - eauto.
  - eauto.
  - intros o d a Ho. eapply unforged_def_mono; [|eauto]. auto.
  - eauto.
  - exact gd_new0.
  - exact gd_num0.
  - exact gd_blt0.
Qed.

Lemma good_alloc E X n s d o s' :
  good X n s → unforged_def X d → alloc E d s = Some (o, s') → good X n s'.
Proof.
  intros G Hd Ha. apply alloc_Some in Ha as (-> & -> & _). destruct G.
  assert (objs s !! nobj s = None) as Hno.
  { destruct (objs s !! nobj s) as [x|] eqn:Hx; [|done]. apply gd_num0 in Hx. lia. }
  split; cbn [ch objs nobj trace]; try done.
  - intros o d' a [[<- [= <- <-]]|[_ Ho]]%lookup_insert_Some; eauto.
  - intros l1 u b l2 d' a Ht. cbn [trace objs] in *. intros [[<- [= <- <-]]|[_ Ho]]%lookup_insert_Some Hm; [|by eapply gd_new0].
    destruct (gd_blt0 (nobj s) b) as [x Hx]; [rewrite Ht; set_solver|]. congruence.
  - intros o x [[<- _]|[_ Ho%gd_num0]]%lookup_insert_Some; lia.
  - intros u b Hin. destruct (gd_blt0 u b Hin) as [x Hx]. rewrite lookup_insert_ne by congruence. eauto.
Qed.

(** What running builders does. *)
Definition grows (X : bin → Prop) (s : st) (X' : bin → Prop) (s' : st) : Prop :=
  (∀ b, X b → X' b) ∧ objs s ⊆ objs s' ∧ (nbin s ≤ nbin s')%N ∧ fine X' s'.
Lemma grows_refl X s : fine X s → grows X s X s.
Proof. intros G. split_and!; [done|done|lia|done]. Qed.
Lemma grows_trans X s X' s' X'' s'' : grows X s X' s' → grows X' s' X'' s'' → grows X s X'' s''.
Proof.
  intros (H1 & H2 & H3 & _) (G1 & G2 & G3 & G4). split_and!; [auto| |lia|done]. by etrans.
Qed.

(** [b] is newer than everything else in the cache, and than [X]. *)
Definition alone (X : bin → Prop) (s : st) (a : addr) (b : bin) : Prop :=
  ∃ Y : bin → Prop, (∀ c, X c → Y c) ∧ (∀ c, Y c → (bin_ptr c < bin_ptr b)%N) ∧
    (∀ a' e, a' ≠ a → artifacts (ch s) !! a' = Some e → ∀ c, in_bin c (ar_bin e) → Y c) ∧
    (∀ a' d c, dyn_states (ch s) !! a' = Some d → inside c (ds_val d) → Y c) ∧
    (∀ c, inside c (bin_val b) → Y c).

Definition bld_good (bld : obj → st → outcome bres) : Prop :=
  ∀ o s X d a, fine X s → promise o s = Some (d, a) →
    match bld o s with
    | Done (BOk e) s' => ∃ X', grows X s X' s' ∧ X' (ar_bin e) ∧ (mints_def d → alone X s' a (ar_bin e))
    | Done (BErr v) s' => ∃ X', grows X s X' s' ∧ ∀ b, inside b v → X' b
    | Panic _ s' => ∃ X', grows X s X' s'
    | NoFuel | Illegal => True
    end.

Section Run.
Context (E : env).

Lemma get_with_good bld h o s X :
  bld_good bld → fine X s →
  match get_with E bld h o s with
  | Done r s' => ∃ X', grows X s X' s' ∧ ∀ b, in_rval b r → X' b
  | Panic _ s' => ∃ X', grows X s X' s'
  | NoFuel | Illegal => True
  end.
Proof.
  intros Hb G. unfold get_with. destruct (promise o s) as [[d a]|] eqn:Hp; [|done].
  destruct (how_legal E h); [|done].
  assert (∀ X' s' b c, fine X' s' → X' c → in_rval b (conv h c) → X' b) as Hconv.
  { intros X' s' b c G' Hc. destruct h; cbn; [by eapply good_in_bin|by eapply gd_in..]. }
  unfold lookup_art. destruct (artifacts (ch s) !! a) as [e|] eqn:He.
  - destruct (_ && _); [exists X; by apply grows_refl|].
    destruct (_ =? _)%N; [|exists X; by apply grows_refl].
    exists X. split; [by apply grows_refl|]. intros b. eapply Hconv; [exact G|]. by eapply gd_art.
  - specialize (Hb o s X d a G Hp). destruct (bld o s) as [[e|v] s'|k s'| |]; try done.
    destruct Hb as (X' & Hg & He' & _). destruct (_ =? _)%N; [|by exists X'].
    exists X'. split; [done|]. intros b. eapply Hconv; [apply Hg|done].
Qed.

Lemma track_fields dbg ua wa w c :
  match track_dependency dbg ua wa w c with
  | COk c' | CPanic _ c' => artifacts c' = artifacts c ∧ dyn_states c' = dyn_states c
  | CFuel => True
  end.
Proof.
  unfold track_dependency. destruct (make_known_fields wa w c) as (Ha & Hd & _).
  destruct (_ && _); cbn; done.
Qed.

Lemma resolve_with_good bld u ua h w s X :
  bld_good bld → fine X s →
  match resolve_with E bld u ua h w s with
  | Done r s' => ∃ X', grows X s X' s' ∧ ∀ b, in_rval b r → X' b
  | Panic _ s' => ∃ X', grows X s X' s'
  | NoFuel | Illegal => True
  end.
Proof.
  intros Hb G. unfold resolve_with. destruct (promise w s) as [[d wa]|] eqn:Hp; [|done].
  pose proof (track_fields (e_dbg E) ua wa w (ch s)) as Ht.
  destruct (track_dependency (e_dbg E) ua wa w (ch s)) as [c|k c|]; [| |done].
  - destruct Ht as [Ha Hd]. set (s1 := log (EResolve u w) (set_ch c s)).
    assert (fine X s1) as G1.
    { apply good_log_other; [|done|done]. by apply (good_same X (nbin s) s). }
    pose proof (get_with_good bld h w s1 X Hb G1) as Hg.
    destruct (get_with E bld h w s1) as [r s2|k s2| |]; try done.
    destruct Hg as (X' & (H1 & H2 & H3 & H4) & Hr). exists X'. split; [|done].
    split_and!; [done|done|done|]. by apply good_log_other.
  - exists X. split_and!; [done|done|done|]. destruct Ht. by apply (good_same X (nbin s) s).
Qed.

(** The outcome of a program; [m]: it mints. *)
Definition run_good (X : bin → Prop) (s : st) (m : Prop) (x : outcome result) : Prop :=
  match x with
  | Done r s' => ∃ X', grows X s X' s' ∧ (∀ b, in_result b r → X' b) ∧
      (∀ b, r = Ok b → m → ∃ Y : bin → Prop, (∀ c, X c → Y c) ∧ good Y (bin_ptr b) s' ∧ (∀ c, inside c (bin_val b) → Y c))
  | Panic _ s' => ∃ X', grows X s X' s'
  | NoFuel | Illegal => True
  end.
Lemma run_good_trans X s X1 s1 (m m1 : Prop) x :
  grows X s X1 s1 → (m → m1) → run_good X1 s1 m1 x → run_good X s m x.
Proof.
  intros Hg Hm. destruct x as [r s'|k s'| |]; cbn; try done.
  - intros (X' & H1 & H2 & H3). exists X'. split_and!; [by eapply grows_trans|done|].
    intros b Hr Hb. destruct (H3 b Hr (Hm Hb)) as (Y & Y1 & Y2 & Y3). exists Y. split_and!; [|done..].
    intros c Hc. by apply Y1, Hg.
  - intros (X' & H1). exists X'. by eapply grows_trans.
Qed.

Lemma exec_good bld u ua t : bld_good bld → ∀ p X s,
  fine X s → unforged X p → run_good X s (mints p) (exec E bld u ua t p s).
Proof.
  intros Hb p.
  induction p as [r| |h w k IH|k IH|v p IH|k IH|v k IH|d k IH|w p IH]; intros X s G Hu; cbn [exec unforged mints] in *.
  - exists X. split_and!; [by apply grows_refl|done|]. by intros b ->.
  - exists X. by apply grows_refl.
  - pose proof (resolve_with_good bld u ua h w s X Hb G) as Hr.
    destruct (resolve_with E bld u ua h w s) as [r s1|pk s1| |]; try done.
    destruct Hr as (X1 & Hg & Hin).
    eapply run_good_trans; [exact Hg| |apply (IH r X1 s1)]; [by intros H; apply H|apply Hg|].
    eapply unforged_mono; [|apply Hu]. cbn. intros b [?|?]; [by apply Hg|auto].
  - unfold my_state. destruct (_ && _); [exists X; by apply grows_refl|].
    destruct (dyn_states (ch s) !! ua) as [d|] eqn:Hd; [|exists X; by apply grows_refl].
    destruct (_ =? _)%N; [|exists X; by apply grows_refl].
    eapply run_good_trans; [by apply grows_refl| |apply IH]; [by intros H; apply H|done|].
    eapply unforged_mono; [|apply Hu]. cbn. intros b [?|?]; [done|]. by eapply gd_dyn.
  - destruct Hu as [Hv Hu]. destruct (my_state _ _ _ _); [exists X; by apply grows_refl|].
    set (s1 := set_ch _ s). assert (fine X s1) as G1.
    { destruct G. split; try done. cbn. intros a d b [[<- <-]|[_ Ha]]%lookup_insert_Some; cbn; eauto. }
    eapply run_good_trans; [|done|by apply IH]. split_and!; done.
  - set (s1 := tock s). assert (fine X s1) as G1 by (by apply (good_same X (nbin s) s)).
    eapply run_good_trans; [|by intros H; apply H|apply (IH _ X s1 G1 (Hu _))]. split_and!; done.
  - destruct Hu as [Hv Hu]. pose proof (good_newbin X s v G Hv) as G1.
    set (s1 := set_nbin _ s) in *. set (X1 := λ b, X b ∨ b = Bin (nbin s) v) in *.
    assert (grows X s X1 s1) as Hg by (split_and!; [by left|done|cbn; lia|done]).
    pose proof (IH (Bin (nbin s) v) X1 s1 G1 (Hu _)) as Hx.
    destruct (exec E bld u ua t (k (Bin (nbin s) v)) s1) as [r s2|pk s2| |] eqn:He; try done.
    + destruct Hx as (X' & H1 & H2 & H3). exists X'. split_and!; [by eapply grows_trans|done|].
      intros b -> [Hk|Hk].
      * rewrite (Hk (nbin s)) in He. cbn in He. injection He as <- <-. cbn.
        exists X. split_and!; [done| |done]. by apply (good_same X (nbin s) s).
      * destruct (H3 b eq_refl (Hk _)) as (Y & Y1 & Y2 & Y3). exists Y. split_and!; [|done..].
        intros c Hc. apply Y1. by left.
    + destruct Hx as (X' & H1). exists X'. by eapply grows_trans.
  - destruct Hu as [Hd Hu]. destruct (alloc E d s) as [[o s1]|] eqn:Ha; [|done].
    pose proof (good_alloc E X _ s d o s1 G Hd Ha) as G1. apply alloc_Some in Ha as (Ho & Hs1 & _).
    assert (nbin s1 = nbin s) as Hn by (by rewrite Hs1).
    assert (objs s ⊆ objs s1) as Hsub.
    { rewrite Hs1. cbn. apply insert_subseteq. rewrite Ho. destruct (objs s !! nobj s) as [x|] eqn:Hx; [|done].
      apply (gd_num _ _ _ G) in Hx. lia. }
    rewrite <- Hn in G1.
    eapply run_good_trans; [|by intros H; apply H|apply (IH o X s1 G1 (Hu _))]. split_and!; [done|done|lia|done].
  - destruct (drop_obj w s) as [s1|] eqn:Ha; [|done]. apply drop_Some in Ha as (_ & _ & ->).
    eapply run_good_trans; [|done|apply IH]; [| |done].
    + split_and!; [done|done|done|]. by apply (good_same X (nbin s) s).
    + by apply (good_same X (nbin s) s).
Qed.

Lemma ensure_good a o t init c c2 r X s :
  ch s = c → fine X s → (∀ v b, init = Some v → inside b v → X b) → ensure_dyn_state a o t init c = (c2, r) →
  fine X (set_ch c2 s) ∧ match r with inr v => ∀ b, inside b v → X b | inl _ => True end.
Proof.
  intros <- G Hi. unfold ensure_dyn_state. destruct (make_known_fields a o (ch s)) as (Ha & Hd & _).
  assert (fine X (set_ch (make_known a o (ch s)) s)) as G1 by (by apply (good_same X (nbin s) s)).
  destruct (dyn_states (make_known a o (ch s)) !! a) as [d|] eqn:He.
  - destruct (_ =? _)%N; intros [= <- <-]; [|done]. split; [done|]. intros b. eapply (gd_dyn _ _ _ G1). exact He.
  - destruct init as [v|]; intros [= <- <-]; [|done]. split; [|by eauto].
    destruct G1. split; try done. cbn in *. intros a' d b [[<- <-]|[_ Ha']]%lookup_insert_Some; cbn; eauto.
Qed.

Lemma build_good fuel : bld_good (build E fuel).
Proof.
  induction fuel as [|fuel IH]; intros o s X d a G Hp; cbn [build]; [done|].
  rewrite Hp. destruct d as [aty sty init body].
  destruct (e_dbg E && _); [exists X; by apply grows_refl|].
  apply promise_Some in Hp as [Hal Ho].
  destruct (gd_obj _ _ _ G o _ a Ho) as [Hi Hu].
  set (s0 := set_ch (make_known a o (ch s)) s).
  assert (fine X s0) as G0.
  { destruct (make_known_fields a o (ch s)) as (Ha & Hd & _). by apply (good_same X (nbin s) s). }
  destruct (ensure_dyn_state a o sty init (make_known a o (ch s))) as [c2 r] eqn:He.
  destruct (ensure_good a o sty init _ c2 r X s0 eq_refl G0 Hi He) as [G1 _].
  destruct r as [k|v].
  { exists X. split_and!; [done..|]. by apply (good_same X (nbin s) (set_ch c2 s0)). }
  set (s1 := log _ _).
  assert (fine X s1) as G2.
  { apply good_log_other; [|done|done]. by apply (good_same X (nbin s) (set_ch c2 s0)). }
  assert (grows X s X s1) as Hg1 by (split_and!; done).
  pose proof (exec_good (build E fuel) o a sty IH body X s1 G2 Hu) as Hx.
  destruct (exec E (build E fuel) o a sty body s1) as [[b|e] s2|k s2| |] eqn:Hex; try done.
  - destruct Hx as (X' & Hg & Hin & Hnew). cbn in Hin. cbn [artifacts set_artifacts]. rewrite lookup_insert.
    assert (X' b) as Hb by (apply Hin; by left).
    set (s3 := set_ch _ s2). assert (good X' (nbin s2) s3) as G3.
    { destruct Hg as (_ & _ & _ & Hf). destruct Hf. split; try done. cbn.
      intros a' e [[<- <-]|[_ Ha']]%lookup_insert_Some; cbn; eauto. }
    assert (objs s2 !! o = Some (BDef aty sty init body, a)) as Ho2.
    { eapply lookup_weaken; [exact Ho|]. apply Hg. }
    assert (good X' (nbin s2) (log (EBuilt o b) s3)) as G4.
    { apply good_log; [done|done| |].
      - intros u b0 d' a' [= <- <-] Hd' Hm e c Hin' Hc. cbn in Hd'. rewrite Ho2 in Hd'. injection Hd' as <- <-.
        destruct (Hnew b eq_refl Hm) as (Y & _ & GY & _).
        assert (bin_ptr c < bin_ptr b)%N; [|lia]. eapply (gd_lt _ _ _ GY), (gd_ev _ _ _ GY); eauto.
      - intros u b0 [= <- <-]. cbn. eauto. }
    exists X'. split_and!.
    + destruct Hg as (Q1 & Q2 & Q3 & Q4). split_and!; [done|done|done|].
      by apply (good_same X' (nbin s2) (log (EBuilt o b) s3)).
    + done.
    + intros Hm. destruct (Hnew b eq_refl Hm) as (Y & Y1 & GY & Y3). exists Y. cbn. split_and!; [done|by eapply gd_lt| | |done].
      * intros a' e Hne Ha' c. rewrite lookup_insert_ne in Ha' by done. eapply good_in_bin; [exact GY|]. by eapply gd_art.
      * intros a' d c. by eapply gd_dyn.
  - destruct Hx as (X' & Hg & Hin & _). cbn in Hin. exists X'. split; [|done].
    destruct Hg as (Q1 & Q2 & Q3 & Q4). split_and!; [done|done|done|].
    apply (good_same X' (nbin s2) (log (EFailed o e) s2)); [|done..]. by apply good_log_other.
Qed.

(** Removing entries. *)
Definition less (c c' : cache) : Prop := artifacts c' ⊆ artifacts c ∧ dyn_states c' ⊆ dyn_states c.
Definition lessr (c : cache) (r : cres) : Prop := match r with COk c' | CPanic _ c' => less c c' | CFuel => True end.
Lemma less_refl c : less c c.
Proof. done. Qed.
Lemma less_trans c1 c2 c3 : less c1 c2 → less c2 c3 → less c1 c3.
Proof. intros [? ?] [? ?]. split; by etrans. Qed.
Lemma lessr_trans c c1 r : less c c1 → lessr c1 r → lessr c r.
Proof. destruct r; cbn; try done; apply less_trans. Qed.
Lemma inv_deps_less dbg P b l c : lessr c (inv_deps dbg P b l c).
Proof.
  revert c. induction l as [|d l IH]; intros c; cbn; [apply less_refl|].
  case_bool_decide; [apply IH|]. destruct (dependents c !! d) as [X|]; [|apply less_refl].
  destruct (_ && _); [done|]. case_bool_decide; eapply lessr_trans; try apply IH; done.
Qed.
Lemma inv_loop_less fuel dbg pr i P L c : lessr c (inv_loop fuel dbg pr i P L c).
Proof.
  revert i P L c. induction fuel as [|fuel IH]; intros i P [|b L] c; cbn [inv_loop]; try apply less_refl; [done|].
  match goal with |- lessr _ (match ?x with _ => _ end) => pose proof (inv_deps_less dbg ({[b]} ∪ P) b
    (match dependencies (set_dependents (delete b) c) !! b with Some set => iter_order (pr (2 * i + 1)) set | None => [] end)
    (set_dependencies (delete b) (set_dependents (delete b) c))) as H; destruct x as [c3|k c3|] end; [|exact H|done].
  eapply lessr_trans; [|apply IH]. destruct H as [H1 H2]. cbn in H1, H2. split; cbn; [|done]. etrans; [apply delete_subseteq|done].
Qed.
Lemma inv_less dbg pr a c : lessr c (invalidate_by_id dbg pr a c).
Proof. apply inv_loop_less. Qed.
Lemma gc_loop_less dbg pr i l c : lessr c (gc_loop dbg pr i l c).
Proof.
  revert i c. induction l as [|b l IH]; intros i c; cbn [gc_loop]; [apply less_refl|].
  pose proof (inv_less dbg (pr i) b c) as H. destruct (invalidate_by_id dbg (pr i) b c) as [c1|k c1|]; [|done..].
  eapply lessr_trans; [|apply IH]. destruct H as [H1 H2]. split; cbn; [done|]. etrans; [apply delete_subseteq|done].
Qed.
Lemma gc_less dbg pr al c : lessr c (garbage_collection dbg pr al c).
Proof.
  unfold garbage_collection. destruct (_ && _); [apply less_refl|].
  destruct (forallb _ _); [apply gc_loop_less|apply less_refl].
Qed.
Lemma purge_less dbg pr a c : lessr c (purge dbg pr a c).
Proof.
  unfold purge. eapply lessr_trans; [|apply inv_less]. split; cbn; apply delete_subseteq.
Qed.
Lemma less_good X s c : fine X s → less (ch s) c → fine X (set_ch c s).
Proof. intros G [H1 H2]. by apply (good_less X (nbin s) s). Qed.

(** One call, for shared bins. *)
Lemma step_good n x s X :
  e_kind E = Shared → fine X s → unforged_op X x →
  match step E n x s with
  | Done r s' => ∃ X', grows X s X' s' ∧ ∀ b, in_answer b (Returned r) → X' b
  | Panic _ s' => ∃ X', grows X s X' s'
  | NoFuel | Illegal => True
  end.
Proof.
  intros Hk G Hx.
  assert (∀ s', objs s' = objs s → nbin s' = nbin s → fine X s' → grows X s X s') as Hgr.
  { intros s' Ho Hn G'. split_and!; [done|by rewrite Ho|by rewrite Hn|done]. }
  assert (∀ c, less (ch s) c → grows X s X (tock (set_ch c s))) as Hless.
  { intros c Hc. apply Hgr; [done..|]. apply (good_same X (nbin s) (set_ch c s)); [by apply less_good|done..]. }
  assert (∀ c o, less (ch s) c → grows X s X (log (EInvalidate o) (tock (set_ch c s)))) as Hless'.
  { intros c o Hc. apply Hgr; [done..|]. apply good_log_other; [|done..]. by apply Hless. }
  destruct x as [d|o|h o|o f|h o|o f|o|o f|o|o|o| | | |o| ]; cbn [step unforged_op] in *.
  - destruct (alloc E d s) as [[o s1]|] eqn:Ha; [|done].
    pose proof (good_alloc E X _ s d o s1 G Hx Ha) as G1. apply alloc_Some in Ha as (Ho & Hs1 & _).
    assert (nbin s1 = nbin s) as Hn by (by rewrite Hs1).
    assert (objs s ⊆ objs s1) as Hsub.
    { rewrite Hs1. cbn. apply insert_subseteq. rewrite Ho. destruct (objs s !! nobj s) as [y|] eqn:Hy; [|done].
      apply (gd_num _ _ _ G) in Hy. lia. }
    rewrite <- Hn in G1. exists X. split; [|done]. split_and!; [done|done|lia|done].
  - destruct (drop_obj o s) as [s1|] eqn:Ha; [|done]. apply drop_Some in Ha as (_ & _ & ->).
    exists X. split; [|done]. apply Hgr; [done..|]. by apply (good_same X (nbin s) s).
  - pose proof (get_with_good (build E n) h o s X (build_good n) G) as H. unfold get.
    destruct (get_with E (build E n) h o s) as [r s'|k s'| |]; done.
  - unfold op_get_mut. by rewrite Hk.
  - destruct (promise o s) as [[d a]|]; [|done]. destruct (how_legal E h); [|done].
    unfold lookup_art. destruct (artifacts (ch s) !! a) as [e|] eqn:He.
    + destruct (_ && _); [exists X; by apply grows_refl|].
      destruct (_ =? _)%N; [|exists X; by apply grows_refl]. exists X. split; [by apply grows_refl|].
      pose proof (gd_art _ _ _ G a e He) as HX. intros b. destruct h; cbn; [by eapply good_in_bin|by eapply gd_in..].
    + exists X. split; [by apply grows_refl|done].
  - unfold op_lookup_mut. by rewrite Hk.
  - destruct (promise o s) as [[d a]|] eqn:Hp; [|done]. apply promise_Some in Hp as [_ Ho].
    destruct (ensure_dyn_state a o (bd_sty d) (bd_init d) (ch s)) as [c r] eqn:He.
    assert (∀ v b, bd_init d = Some v → inside b v → X b) as Hi.
    { pose proof (gd_obj _ _ _ G o d a Ho) as Hd. destruct d. apply Hd. }
    destruct (ensure_good _ _ _ _ _ _ _ X s eq_refl G Hi He) as [G1 Hr].
    destruct r as [k|v]; exists X; [by apply Hgr|]. split; [by apply Hgr|done].
  - destruct (promise o s) as [[d a]|] eqn:Hp; [|done]. apply promise_Some in Hp as [_ Ho].
    pose proof (inv_less (e_dbg E) (prio E s 0) a (ch s)) as Hl.
    destruct (invalidate_by_id _ _ _ _) as [c|k c|]; [|exists X; by apply Hless|done].
    specialize (Hless' c o Hl). set (s1 := log _ _) in *.
    destruct (ensure_dyn_state a o (bd_sty d) (bd_init d) (ch s1)) as [c' r] eqn:He.
    assert (∀ v b, bd_init d = Some v → inside b v → X b) as Hi.
    { pose proof (gd_obj _ _ _ G o d a Ho) as Hd. destruct d. apply Hd. }
    destruct (ensure_good _ _ _ _ _ _ _ X s1 eq_refl ltac:(apply Hless') Hi He) as [G1 Hr].
    destruct r as [k|v]; exists X; [by apply Hgr|]. split; [|done]. apply Hgr; [done..|].
    destruct G1. split; try done. cbn in *.
    intros a' d' b [[<- <-]|[_ Ha']]%lookup_insert_Some; cbn; [|eauto].
    intros Hb. destruct (Hx v b Hb) as [?|?]; auto.
  - destruct (promise o s) as [[d a]|] eqn:Hp; [|done]. unfold get_dyn_state.
    destruct (dyn_states (ch s) !! a) as [d'|] eqn:Hd; [|exists X; split; [by apply grows_refl|done]].
    destruct (_ && _); [exists X; by apply grows_refl|].
    destruct (_ =? _)%N; [|exists X; by apply grows_refl]. exists X. split; [by apply grows_refl|].
    intros b. cbn. by eapply gd_dyn.
  - destruct (promise o s) as [[d a]|] eqn:Hp; [|done].
    pose proof (inv_less (e_dbg E) (prio E s 0) a (ch s)) as Hl. unfold lift.
    destruct (invalidate_by_id _ _ _ _) as [c|k c|]; [|exists X; by apply Hless|done].
    exists X. split; [by apply Hless'|done].
  - destruct (promise o s) as [[d a]|] eqn:Hp; [|done].
    pose proof (purge_less (e_dbg E) (prio E s 0) a (ch s)) as Hl. unfold lift.
    destruct (purge _ _ _ _) as [c|k c|]; [|exists X; by apply Hless|done].
    exists X. split; [by apply Hless'|done].
  - exists X. split; [|done]. apply Hgr; [done..|]. apply less_good; [done|]. split; cbn; [apply map_empty_subseteq|done].
  - exists X. split; [|done]. apply Hgr; [done..|]. apply good_log_other; [|done..].
    apply less_good; [done|]. split; cbn; apply map_empty_subseteq.
  - pose proof (gc_less (e_dbg E) (prio E s) (alive s) (ch s)) as Hl. unfold lift.
    destruct (garbage_collection _ _ _ _) as [c|k c|]; [|exists X; by apply Hless|done].
    exists X. split; [by apply Hless|done].
  - destruct (promise o s) as [[d a]|]; [|done]. exists X. split; [by apply grows_refl|done].
  - exists X. split; [by apply grows_refl|done].
Qed.

(** Whole histories. *)
Lemma held_mono X l x a b : held X l b → held X ((x, a) :: l) b.
Proof. intros [?|(y & c & Hin & Hb)]; [by left|]. right. exists y, c. split; [by right|done]. Qed.
Lemma unforged_op_mono (X Y : bin → Prop) x : (∀ b, X b → Y b) → unforged_op X x → unforged_op Y x.
Proof.
  intros HXY. destruct x; cbn; try done; [by apply unforged_def_mono|..]; intros H v b Hb; destruct (H v b Hb); auto.
Qed.
Lemma start_good X n : own_bins X n → fine X (start n).
Proof.
  intros (H1 & H2 & H3). split; try done; cbn.
  - intros e b Hin. set_solver.
  - intros u b Hin. set_solver.
Qed.
Lemma runs_good P X m l s :
  e_kind E = Shared → own_bins X m → runs E P (start m) l s → honest X l →
  ∃ Y, fine Y s ∧ ∀ b, held X l b → Y b.
Proof.
  intros Hk HX. induction 1 as [|l s n x r s' Hr IH HP Hs|l s n x k s' Hr IH HP Hs Hre]; intros Hh.
  - exists X. split; [by apply start_good|]. intros b [?|(x & a & Hin & _)]; [done|set_solver].
  - cbn in Hh. destruct Hh as [Hh Hx]. destruct (IH Hh) as (Y & G & Hheld).
    pose proof (step_good n x s Y Hk G (unforged_op_mono _ _ _ Hheld Hx)) as H. rewrite Hs in H.
    destruct H as (Y' & Hg & Hin). exists Y'. split; [apply Hg|].
    intros b [?|(y & a & [[= -> ->]|Hl]%elem_of_cons & Hb)].
    + apply Hg, Hheld. by left.
    + by apply Hin.
    + apply Hg, Hheld. right. eauto.
  - cbn in Hh. destruct Hh as [Hh Hx]. destruct (IH Hh) as (Y & G & Hheld).
    pose proof (step_good n x s Y Hk G (unforged_op_mono _ _ _ Hheld Hx)) as H. rewrite Hs in H.
    destruct H as (Y' & Hg). exists Y'. split.
    + apply (good_same Y' (nbin s') s'); [apply Hg|done..].
    + intros b [?|(y & a & [[= -> ->]|Hl]%elem_of_cons & Hb)].
      * apply Hg, Hheld. by left.
      * done.
      * apply Hg, Hheld. right. eauto.
Qed.

Lemma good_in_cache X n s b : good X n s → in_cache b s → X b.
Proof.
  intros G [(o & c & Hc & Hb)|(o & v & Hv & Hb)].
  - assert (X c) as HX; [|by eapply good_in_bin].
    unfold cached in Hc. destruct (objs s !! o) as [[d a]|]; [|done]. destruct (decide _) as [Hkn|]; [|done].
    destruct (artifacts (ch s) !! a) as [e|] eqn:He; [|done]. injection Hc as <-. by eapply gd_art.
  - unfold state_of in Hv. destruct (objs s !! o) as [[d a]|]; [|done]. destruct (decide _) as [Hkn|]; [|done].
    destruct (dyn_states (ch s) !! a) as [e|] eqn:He; [|done]. injection Hv as <-. by eapply gd_dyn.
Qed.

(** The artifact of a [get] of a builder that mints is a new bin. *)
Lemma get_mints n h o s X r s' d a :
  Inv s → fine X s → step E n (OGet h o) s = Done (OutRes r) s' → (∀ e, r ≠ RvErr e) →
  cached s o = None → objs s !! o = Some (d, a) → mints_def d →
  ∃ b, cached s' o = Some b ∧ r = conv h b ∧ Inv s' ∧ promise o s' = Some (d, a) ∧ alone X s' a b.
Proof.
  intros I G Hs Hr Hc Ho Hm. cbn [step] in Hs. unfold get, get_with in Hs.
  destruct (promise o s) as [[d' a']|] eqn:Hp; [|done].
  destruct (how_legal E h); [|done]. rewrite (lookup_art_ok _ o s d' a' I Hp) in Hs.
  rewrite (live_cached s o d' a' I Hp) in Hc. apply promise_Some in Hp as Hp'. destruct Hp' as [_ Ho'].
  rewrite Ho in Ho'. injection Ho' as <- <-.
  destruct (artifacts (ch s) !! a) as [e|] eqn:He; [done|].
  pose proof (build_good n o s X d a G Hp) as H.
  destruct (build_bld_ok E n o s d a Hp He (i_wf s I)) as [P1 P2].
  destruct (build E n o s) as [[e|v] s1|k s1| |] eqn:Hbd; try done.
  - destruct (_ =? _)%N; [|done]. injection Hs as <- <-. destruct H as (X' & _ & _ & H). specialize (H Hm).
    destruct (P2 _ _ eq_refl) as (_ & Hal & Hart).
    assert (rtc (prim E) s s1) as Hps by (apply P1; left; eauto).
    assert (promise o s1 = Some (d, a)) as Hp1.
    { apply promise_Some. split; [done|]. exact (prims_objs E s s1 o _ Hps (i_wf s I) Ho). }
    pose proof (prims_Inv E s s1 Hps I) as I1.
    exists (ar_bin e). rewrite (live_cached s1 o d a I1 Hp1), Hart. done.
  - injection Hs as <- <-. by destruct (Hr v).
Qed.
End Run.
