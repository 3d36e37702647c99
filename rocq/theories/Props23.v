(** C56: the identity of bins.  And the part of C32 about ClonedBuilder's bin. *)
From Verif Require Import BinFacts Facts1 Demo.
From stdpp Require Import relations.

Lemma start_Inv m : Inv (start m).
Proof. pose proof Inv_init as I. split; apply I. Qed.

Lemma around_good X l s Y n b : good Y n s → (∀ b, held X l b → Y b) → around X l s b → Y b.
Proof.
  intros G HY [Hb|[Hb|(e & He & Hb)]]; [auto| |by eapply gd_ev]. by eapply good_in_cache.
Qed.

(** Shared bins are what they are: in any history of a user who forges no bins,
    two bins with the same identity are the same bin with the same content,
    wherever they turn up. *)
Theorem C56_identity E P X m l s b c :
  e_kind E = Shared → own_bins X m → runs E P (start m) l s → honest X l →
  around X l s b → around X l s c → bin_ptr b = bin_ptr c → b = c.
Proof.
  intros Hk HX Hr Hh Hb Hc. destruct (runs_good E P X m l s Hk HX Hr Hh) as (Y & G & HY).
  apply (gd_id _ _ _ G); by eapply around_good.
Qed.
Print Assumptions C56_identity.

(** The bin of a SimpleBuilder, ConfigurableBuilder or ClonedBuilder is new when
    it is built: it is none of those seen before. *)
Theorem C56_new E P X m l s l1 u b l2 d a :
  e_kind E = Shared → own_bins X m → runs E P (start m) l s → honest X l →
  trace s = l1 ++ EBuilt u b :: l2 → at_addr s u d a → own_bin d →
  ∀ e c, e ∈ l2 → in_event c e → bin_ptr c ≠ bin_ptr b.
Proof.
  intros Hk HX Hr Hh Ht Hat Hd. destruct (runs_good E P X m l s Hk HX Hr Hh) as (Y & G & HY).
  eapply (gd_new _ _ _ G); [exact Ht|exact Hat|]. by apply own_bin_mints.
Qed.
Print Assumptions C56_new.

(** A [get] that builds it gives a bin that nobody had before the call, and that
    nobody else has right after it. *)
Theorem C56_get E P X m l s n h o r s' d a :
  e_kind E = Shared → own_bins X m → runs E P (start m) l s → honest X l →
  at_addr s o d a → own_bin d → cached s o = None →
  step E n (OGet h o) s = Done (OutRes r) s' → (∀ e, r ≠ RvErr e) →
  ∃ b, cached s' o = Some b ∧ r = conv h b ∧
    (∀ c, around X l s c → bin_ptr c ≠ bin_ptr b) ∧
    (∀ w c c', w ≠ o → cached s' w = Some c' → in_bin c c' → bin_ptr c ≠ bin_ptr b) ∧
    (∀ w v c, state_of s' w = Some v → inside c v → bin_ptr c ≠ bin_ptr b).
Proof.
  intros Hk HX Hr Hh Hat Hd Hc Hs Hne. destruct (runs_good E P X m l s Hk HX Hr Hh) as (Y & G & HY).
  destruct (runs_Inv E P _ l s Hr (start_Inv m) eq_refl) as [I _].
  destruct (get_mints E n h o s Y r s' d a I G Hs Hne Hc Hat (own_bin_mints d Hd))
    as (b & Hb & Hconv & I' & Hp' & Z & Z1 & Z2 & Z3 & Z4 & _).
  exists b. split_and!; [done|done|..].
  - intros c Hin. assert (bin_ptr c < bin_ptr b)%N; [|lia]. apply Z2, Z1. by eapply around_good.
  - intros w c c' Hw Hcw Hin. assert (bin_ptr c < bin_ptr b)%N; [|lia]. apply Z2.
    unfold cached in Hcw. destruct (objs s' !! w) as [[dw aw]|] eqn:Hwo; [|done].
    destruct (decide _) as [Hkn|]; [|done]. destruct (artifacts (ch s') !! aw) as [e|] eqn:He; [|done].
    injection Hcw as <-. eapply (Z3 aw e); [|done..]. intros ->. apply Hw.
    exact (Inv_known_is s' o d a w I' Hp' Hkn).
  - intros w v c Hv Hin. assert (bin_ptr c < bin_ptr b)%N; [|lia]. apply Z2.
    unfold state_of in Hv. destruct (objs s' !! w) as [[dw aw]|] eqn:Hwo; [|done].
    destruct (decide _) as [Hkn|]; [|done]. destruct (dyn_states (ch s') !! aw) as [e|] eqn:He; [|done].
    injection Hv as <-. by eapply (Z4 aw e).
Qed.
Print Assumptions C56_get.

(** In particular, the bin of a ClonedBuilder is a new one, not that of its inner
    builder. *)
Theorem C32_cloned_new E P X m l s n h o r s' a aty sty w :
  e_kind E = Shared → own_bins X m → runs E P (start m) l s → honest X l →
  at_addr s o (cloned aty sty w) a → cached s o = None → w ≠ o →
  step E n (OGet h o) s = Done (OutRes r) s' → (∀ e, r ≠ RvErr e) →
  ∃ b, cached s' o = Some b ∧ r = conv h b ∧ (∀ c, around X l s c → bin_ptr c ≠ bin_ptr b) ∧
    ∀ bw, cached s' w = Some bw → bin_ptr bw ≠ bin_ptr b.
Proof.
  intros Hk HX Hr Hh Hat Hc Hw Hs Hne.
  destruct (C56_get E P X m l s n h o r s' _ a Hk HX Hr Hh Hat) as (b & H1 & H2 & H3 & H4 & _); [|done..|].
  { left. eauto. }
  exists b. split_and!; [done..|]. intros bw Hbw. eapply H4; [exact Hw|exact Hbw|]. by left.
Qed.
Print Assumptions C32_cloned_new.

(** The builders of this crate forge no bins. *)
Theorem C56_crate (X : bin → Prop) aty sty w dflt v k c :
  unforged_def X (cloned aty sty w) ∧ unforged_def X (forwarding aty sty w) ∧ unforged_def X (feigning aty sty w) ∧
  ((∀ b b', dflt = Some b' → in_bin b b' → X b) → unforged_def X (redeeming aty sty w dflt)) ∧
  ((∀ b, inside b v → X b) → unforged_def X (configurable aty sty v)) ∧
  ((∀ b, in_bin b c → X b) → unforged_def X (constant k aty sty c)).
Proof.
  assert (∀ v0 b, Some VUnit = Some v0 → inside b v0 → X b) as Hu by (by intros v0 b [= <-]).
  split_and!.
  - split; [done|]. cbn. intros [b|v0|e]; cbn; [done| |by right]. split; [by right|].
    intros i b [->|Hb]; [by right|]. cbn in Hb. left. by right.
  - split; [done|]. cbn. intros [b|v0|e]; cbn; [|done|]; by right.
  - split; [done|]. cbn. intros [b|v0|e]; cbn; [|done|done]; by right.
  - intros Hd. split.
    + intros v0 b [= <-]. destruct dflt as [[p x]|]; cbn; [|done]. intros [->|Hb]; apply (Hd _ (Bin p x)); auto; [by left|by right].
    + cbn. intros [[p x]|v0|e]; cbn.
      * split; [|by right]. intros b [->|Hb]; right; [by left|by right].
      * intros v1. destruct v1 as [| | | | |v1|]; try done. destruct v1; try done. cbn. intros b [->|Hb]; right; [by left|by right].
      * intros v1. destruct v1 as [| | | | |v1|]; try done. destruct v1; try done. cbn. intros b [->|Hb]; right; [by left|by right].
  - intros Hv. split; [by intros v0 b [= <-]; apply Hv|]. cbn. intros v0. split; [by right|].
    intros i b [->|Hb]; [by right|]. cbn in Hb. left. by right.
  - intros Hc. split; [done|]. destruct k; cbn.
    + done.
    + split; [intros b Hb; apply Hc; by right|]. intros i b [->|Hb]; [by right|]. left. apply Hc. by right.
Qed.
Print Assumptions C56_crate.

(** The user makes a bin (identity 0) and gives it to a ConstBuilder (0); a
    ForwardingBuilder (1), a ClonedBuilder (2) and a ForwardingBuilder of the
    ClonedBuilder (3) on top of it. *)
Definition x_bin : bin := Bin 0 (VNum 7).
Definition x_own (b : bin) : Prop := b = x_bin.
Definition x_ops : list op :=
  [OAlloc (constant Shared 0 6 x_bin); OAlloc (forwarding 0 6 0); OAlloc (cloned 0 6 0); OAlloc (forwarding 0 6 2);
   OGet HBin 1; OGet HBin 0].
Lemma run_hist E n l s rs s' s0 h0 :
  run E n l s = Some (rs, s') → runs E any_op s0 h0 s → runs E any_op s0 (rev (zip l rs) ++ h0) s'.
Proof.
  revert s rs h0. induction l as [|x l IH]; cbn [run]; intros s rs h0 Hr H0.
  { by injection Hr as <- <-. }
  destruct (step E n x s) as [r s1|k s1| |] eqn:Hs; try done.
  - destruct (run E n l s1) as [[rs1 s2]|] eqn:H1; [|done]. injection Hr as <- <-. cbn.
    rewrite <- app_assoc. apply (IH s1); [done|]. by eapply runs_done.
  - destruct (resumable k) eqn:Hk; [|done].
    destruct (run E n l (unwound s1)) as [[rs1 s2]|] eqn:H1; [|done]. injection Hr as <- <-. cbn.
    rewrite <- app_assoc. apply (IH (unwound s1)); [done|]. by eapply runs_panic.
Qed.
Definition x_run : list answer * st := match run env_s 10 x_ops (start 1) with Some p => p | None => ([], start 1) end.
Definition x_hist : list (op * answer) := rev (zip x_ops (fst x_run)).
Definition x_st : st := snd x_run.
Definition x_st' : st := match step env_s 10 (OGet HBin 3) x_st with Done _ s => s | _ => x_st end.
Example C56_applies :
  own_bins x_own 1 ∧ runs env_s any_op (start 1) x_hist x_st ∧ honest x_own x_hist ∧
  cached x_st 0 = Some x_bin ∧ cached x_st 1 = Some x_bin ∧ cached x_st 2 = None ∧
  (∃ a, at_addr x_st 2 (cloned 0 6 0) a) ∧ own_bin (cloned 0 6 0) ∧
  step env_s 10 (OGet HBin 3) x_st = Done (OutRes (RvBin (Bin 1 (VNum 7)))) x_st' ∧
  cached x_st' 2 = Some (Bin 1 (VNum 7)) ∧ cached x_st' 0 = Some x_bin.
Proof.
  split; [split; [|split]|split_and!].
  - by intros b ->.
  - by intros b c -> ->.
  - by intros b c ->.
  - assert (run env_s 10 x_ops (start 1) = Some x_run) as Hr by (vm_compute; reflexivity).
    unfold x_hist, x_st. destruct x_run as [rs s]. cbn [fst snd].
    rewrite <- (app_nil_r (rev _)). apply (run_hist _ 10 _ (start 1)); [exact Hr|constructor].
  - assert (x_hist = (OGet HBin 0, Returned (OutRes (RvBin x_bin))) :: (OGet HBin 1, Returned (OutRes (RvBin x_bin))) ::
      (OAlloc (forwarding 0 6 2), Returned (OutObj 3)) :: (OAlloc (cloned 0 6 0), Returned (OutObj 2)) ::
      (OAlloc (forwarding 0 6 0), Returned (OutObj 1)) :: [(OAlloc (constant Shared 0 6 x_bin), Returned (OutObj 0))]) as ->
      by (vm_compute; reflexivity).
    cbn [honest unforged_op]. split_and!; try exact Logic.I.
    + refine (proj2 (proj2 (proj2 (proj2 (proj2 (C56_crate _ 0 6 0 None VUnit Shared x_bin))))) _).
      intros b [->|Hb]; [by left|done].
    + refine (proj1 (proj2 (C56_crate _ 0 6 0 None VUnit Shared x_bin))).
    + refine (proj1 (C56_crate _ 0 6 0 None VUnit Shared x_bin)).
    + refine (proj1 (proj2 (C56_crate _ 0 6 2 None VUnit Shared x_bin))).
  - vm_compute. reflexivity.
  - vm_compute. reflexivity.
  - vm_compute. reflexivity.
  - eexists. vm_compute. reflexivity.
  - left. eauto.
  - vm_compute. reflexivity.
  - vm_compute. reflexivity.
  - vm_compute. reflexivity.
Qed.
