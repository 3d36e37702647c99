(** Facts about the texts of the doctors. *)
From Verif Require Export DotSpec.
From Coq Require Import String.
Local Notation length := List.length.

Ltac lits := repeat match goal with |- context [lit ?s] => let t := eval vm_compute in (lit s) in change (lit s) with t end.

(** ** Numbers *)

Definition undigit (c : N) : N := (if c <? 58 then c - 48 else c - 87)%N.
Definition value (base : N) (l : text) : N := foldl (λ a c, a * base + undigit c)%N 0%N l.
Definition digit_char (c : N) : Prop := (48 ≤ c ≤ 57 ∨ 97 ≤ c ≤ 122)%N.

Lemma undigit_digit n : (n < 36)%N → undigit (digit n) = n ∧ digit_char (digit n).
Proof.
  unfold undigit, digit, digit_char. intros H. destruct (N.ltb_spec n 10).
  - destruct (N.ltb_spec (48 + n) 58); lia.
  - destruct (N.ltb_spec (87 + n) 58); lia.
Qed.
Lemma digits_value f base n : (2 ≤ base ≤ 36)%N → (n < 2 ^ N.of_nat f)%N → 0 < f →
  value base (digits f base n) = n ∧ Forall digit_char (digits f base n).
Proof.
  intros Hb. revert n. induction f as [|f IH]; [lia|]. intros n Hn _. cbn [digits].
  destruct (N.ltb_spec n base) as [Hlt|Hge].
  - destruct (undigit_digit n) as [H1 H2]; [lia|]. split; [|by constructor]. cbn. lia.
  - assert (n mod base < base)%N as Hm by (apply N.mod_lt; lia).
    destruct (undigit_digit (n mod base)) as [H1 H2]; [lia|].
    assert (n / base < 2 ^ N.of_nat f)%N as Hd.
    { apply N.div_lt_upper_bound; [lia|]. replace (N.of_nat (S f)) with (N.succ (N.of_nat f)) in Hn by lia.
      rewrite N.pow_succ_r in Hn by lia. nia. }
    destruct f as [|f]. { cbn in Hd. assert (n / base = 0)%N as H0 by lia. apply N.div_small_iff in H0; lia. }
    destruct (IH _ Hd) as [Hv Hf]; [lia|]. split; [|apply Forall_app; split; [done|by constructor]].
    unfold value in *. rewrite foldl_app. cbn [foldl]. rewrite Hv, H1. pose proof (N.div_mod n base). lia.
Qed.
Lemma fmt_radix_ok base n : (2 ≤ base ≤ 36)%N → value base (fmt_radix base n) = n ∧ Forall digit_char (fmt_radix base n).
Proof.
  intros Hb. apply digits_value; [done| |lia].
  assert (n < 2 ^ N.of_nat (N.size_nat n))%N as H.
  { pose proof (N.size_gt n). replace (N.of_nat (N.size_nat n)) with (N.size n); [done|]. clear. destruct n as [|p]; [done|].
    cbn [N.size N.size_nat]. induction p as [p IH|p IH|]; [..|done]; cbn [Pos.size Pos.size_nat]; lia. }
  eapply N.lt_le_trans; [exact H|]. apply N.pow_le_mono_r; lia.
Qed.
Lemma fmt_radix_inj base n m : (2 ≤ base ≤ 36)%N → fmt_radix base n = fmt_radix base m → n = m.
Proof. intros Hb H. destruct (fmt_radix_ok base n Hb) as [<- _]. destruct (fmt_radix_ok base m Hb) as [<- _]. by rewrite H. Qed.

(** No quotes, no backslashes. *)
Definition plain_char (c : N) : Prop := c ≠ 34%N ∧ c ≠ 92%N.
Definition plain (t : text) : Prop := Forall plain_char t.
Lemma plain_app a b : plain (a ++ b) ↔ plain a ∧ plain b.
Proof. apply Forall_app. Qed.
Lemma plain_cons c t : plain_char c → plain t → plain (c :: t).
Proof. by constructor. Qed.
Lemma plain_nil : plain [].
Proof. by constructor. Qed.
Ltac pl := lits; cbn; repeat (apply plain_cons; [split; done|]); apply plain_nil.
Lemma digits_plain l : Forall digit_char l → plain l.
Proof. intros H. apply Forall_forall. intros c Hc. apply (proj1 (Forall_forall _ _) H) in Hc. unfold digit_char in Hc. unfold plain_char. lia. Qed.
Lemma plain_num n : plain (fmt_num n).
Proof. apply digits_plain. apply fmt_radix_ok. lia. Qed.
Lemma plain_ptr p : plain (fmt_ptr p).
Proof.
  apply plain_app. split; [pl|].
  apply digits_plain. apply fmt_radix_ok. lia.
Qed.

(** ** Lexing *)

Fixpoint lex_run (s : lexst) (l : text) : option (list tok * lexst) :=
  match l with
  | [] => Some ([], s)
  | c :: l =>
    match lex_char s c with
    | Some (t, s) => match lex_run s l with Some (ts, s) => Some (t ++ ts, s) | None => None end
    | None => None
    end
  end.
Lemma lex_app s a b :
  lex s (a ++ b) = match lex_run s a with
    | Some (ts, s) => match lex s b with Some ts' => Some (ts ++ ts') | None => None end
    | None => None end.
Proof.
  revert s. induction a as [|c a IH]; intros s; cbn [app lex lex_run]; [by destruct (lex s b)|].
  destruct (lex_char s c) as [[t s']|]; [|done]. rewrite IH. destruct (lex_run s' a) as [[ts s'']|]; [|done].
  destruct (lex s'' b); [|done]. by rewrite app_assoc.
Qed.
Lemma run_app s a b ts s' ts' s'' : lex_run s a = Some (ts, s') → lex_run s' b = Some (ts', s'') → lex_run s (a ++ b) = Some (ts ++ ts', s'').
Proof.
  revert s ts. induction a as [|c a IH]; intros s ts; cbn [app lex_run].
  - by intros [= <- <-] ->.
  - intros H Hb. destruct (lex_char s c) as [[t s1]|]; [|done]. destruct (lex_run s1 a) as [[ts1 s2]|] eqn:Ha; [|done].
    injection H as <- <-. erewrite IH; [|done..]. by rewrite app_assoc.
Qed.
Lemma run_plain b t : plain t → lex_run (LxStr b) t = Some ([], LxStr (b ++ t)).
Proof.
  intros Hp. revert b. induction Hp as [|c t [H1 H2] _ IH]; intros b; cbn [lex_run lex_char]; [by rewrite app_nil_r|].
  destruct (N.eqb_spec c 34) as [|_]; [done|]. destruct (N.eqb_spec c 92) as [|_]; [done|]. rewrite IH. cbn. by rewrite <- app_assoc.
Qed.

(** Strings. *)
Definition in_str (s : lexst) : Prop := match s with LxStr _ | LxEsc _ => True | _ => False end.
Lemma run_in_str t : ∀ s ts s', lex_run s t = Some (ts, s') → in_str s → ts = [] → in_str s'.
Proof.
  induction t as [|c t IH]; intros s ts s'; cbn [lex_run]; [by intros [= <- <-]|].
  destruct (lex_char s c) as [[t1 s1]|] eqn:Hc; [|done]. destruct (lex_run s1 t) as [[ts1 s2]|] eqn:Hr; [|done].
  intros [= <- <-] Hs [-> ->]%app_nil. apply (IH _ _ _ Hr); [|done]. destruct s as [| |b|b|]; try done; cbn [lex_char] in Hc.
  - destruct (c =? 34)%N; [by simplify_eq/=|]. destruct (c =? 92)%N; by simplify_eq/=.
  - destruct (c =? 34)%N; [by simplify_eq/=|]. destruct (c =? 10)%N; by simplify_eq/=.
Qed.
(** The automaton in a string does not depend on what it has read of it. *)
Definition pre (a : text) (s : lexst) : lexst := match s with LxStr b => LxStr (a ++ b) | LxEsc b => LxEsc (a ++ b) | s => s end.
Lemma char_pre a s c t s' : in_str s → lex_char s c = Some (t, s') → t = [] → lex_char (pre a s) c = Some ([], pre a s').
Proof.
  intros Hs Hc ->. destruct s as [| |b|b|]; try done; cbn [lex_char pre] in *.
  - destruct (c =? 34)%N; [by simplify_eq/=|]. destruct (c =? 92)%N; simplify_eq/=; by rewrite ?app_assoc.
  - destruct (c =? 34)%N; [simplify_eq/=; by rewrite ?app_assoc|]. destruct (c =? 10)%N; simplify_eq/=; by rewrite ?app_assoc.
Qed.
Lemma run_pre a t : ∀ s s', in_str s → lex_run s t = Some ([], s') → lex_run (pre a s) t = Some ([], pre a s').
Proof.
  induction t as [|c t IH]; intros s s' Hs; cbn [lex_run]; [by intros [= <-]|].
  destruct (lex_char s c) as [[t1 s1]|] eqn:Hc; [|done]. destruct (lex_run s1 t) as [[ts1 s2]|] eqn:Hr; [|done].
  intros [= H <-]. apply app_nil in H as [-> ->].
  rewrite (char_pre a s c _ s1 Hs Hc eq_refl). rewrite (IH s1 s2); [done| |done].
  apply (run_in_str [c] s [] s1); [|done..]. cbn. by rewrite Hc.
Qed.
Lemma dot_string_run raw x : dot_string raw x ↔ lex_run (LxStr []) raw = Some ([], LxStr x).
Proof.
  unfold dot_string.
  assert (∀ t, lex LxOut (lit """" ++ t) = lex (LxStr []) t) as ->. { intros t. lits. cbn. by destruct (lex (LxStr []) t). }
  rewrite lex_app. lits. split.
  - intros H. destruct (lex_run (LxStr []) raw) as [[ts s]|] eqn:Hr; [|done]. destruct ts as [|t ts].
    + pose proof (run_in_str _ _ _ _ Hr I eq_refl) as Hs. destruct s as [| |b|b|]; try done; cbn in H; by simplify_eq.
    + exfalso. destruct s as [|w|b|b|]; cbn in H; simplify_eq; by destruct ts.
  - intros ->. done.
Qed.
Lemma read_str_ok raw x : dot_string raw x → read_str raw = x.
Proof. unfold dot_string, read_str. by intros ->. Qed.
Lemma run_dot_string raw b : (∃ x, dot_string raw x) → lex_run (LxStr b) raw = Some ([], LxStr (b ++ read_str raw)).
Proof.
  intros [x Hx]. rewrite (read_str_ok _ _ Hx). apply dot_string_run in Hx. apply (run_pre b) in Hx; [|done]. cbn in Hx. by rewrite app_nil_r in Hx.
Qed.
Lemma plain_dot_string t : plain t → dot_string t t.
Proof. intros H. apply dot_string_run. by rewrite run_plain. Qed.

(** ** Escaping *)

Section Escape.
Context (pr : N → bool).

(** What the lexer makes of one escaped character. *)
Definition esc_read (c : N) : text :=
  if (c =? 34)%N then [c] else esc_char pr c.
Lemma plain_hex c : plain (fmt_radix 16 c).
Proof. apply digits_plain. apply fmt_radix_ok. lia. Qed.
Lemma run_esc_char b c : lex_run (LxStr b) (esc_char pr c) = Some ([], LxStr (b ++ esc_read c)).
Proof.
  unfold esc_read, esc_char.
  destruct (N.eqb_spec c 34) as [->|H34]; [done|].
  destruct (N.eqb_spec c 0) as [->|_]; [done|]. destruct (N.eqb_spec c 9) as [->|_]; [done|].
  destruct (N.eqb_spec c 13) as [->|_]; [done|]. destruct (N.eqb_spec c 10) as [->|_]; [done|].
  destruct (N.eqb_spec c 92) as [->|H92]; [done|]. destruct (pr c).
  - apply run_plain. pl.
  - change (lit "\u{") with (lit "\u" ++ lit "{"). rewrite <- app_assoc.
    eapply (run_app _ _ _ [] (LxStr (b ++ lit "\u")) []); [done|]. 
    rewrite run_plain; [by rewrite <- app_assoc|]. apply plain_app. split; [pl|]. apply plain_app. split; [apply plain_hex|pl].
Qed.
Lemma run_esc b s : lex_run (LxStr b) (esc pr s) = Some ([], LxStr (b ++ (s ≫= esc_read))).
Proof.
  revert b. induction s as [|c s IH]; intros b; cbn; [by rewrite app_nil_r|].
  eapply (run_app _ _ _ [] _ []); [apply run_esc_char|]. rewrite IH. by rewrite <- app_assoc.
Qed.
Lemma dot_string_esc s : dot_string (esc pr s) (s ≫= esc_read).
Proof. apply dot_string_run. apply run_esc. Qed.
Lemma shown_esc s : (∀ c, c ∈ s → c = 10%N ∨ (pr c = true ∧ c ≠ 0 ∧ c ≠ 9 ∧ c ≠ 13)%N) → shown (s ≫= esc_read) = s.
Proof.
  induction s as [|c s IH]; [done|]. intros H. cbn [mbind list_bind].
  assert (shown (s ≫= esc_read) = s) as IHs by (apply IH; set_solver).
  specialize (H c (elem_of_list_here _ _)). unfold esc_read at 1, esc_char.
  destruct (N.eqb_spec c 34) as [->|H34]. { change (shown ([34%N] ++ (s ≫= esc_read))) with (34%N :: shown (s ≫= esc_read)). by rewrite IHs. }
  destruct (N.eqb_spec c 0) as [->|_]; [lia|]. destruct (N.eqb_spec c 9) as [->|_]; [lia|].
  destruct (N.eqb_spec c 13) as [->|_]; [lia|].
  destruct (N.eqb_spec c 10) as [->|H10]. { change (10%N :: shown (s ≫= esc_read) = 10%N :: s). by rewrite IHs. }
  destruct (N.eqb_spec c 92) as [->|H92]. { change (92%N :: shown (s ≫= esc_read) = 92%N :: s). by rewrite IHs. }
  destruct H as [?|(-> & _)]; [lia|]. 
  assert (∀ l, shown (c :: l) = c :: shown l) as Hs.
  { intros l. cbn [shown]. destruct c as [|p]; [done|]. repeat (destruct p as [p|p|]; try done). }
  cbn [app]. by rewrite Hs, IHs.
Qed.
End Escape.
Lemma shown_plain s : 92%N ∉ s → shown s = s.
Proof.
  induction s as [|c s IH]; [done|]. intros H. assert (c ≠ 92%N) as Hc by set_solver.
  assert (∀ l, shown (c :: l) = c :: shown l) as Hs.
  { intros l. cbn [shown]. destruct c as [|p]; [done|]. repeat (destruct p as [p|p|]; try done). }
  rewrite Hs, IH; [done|set_solver].
Qed.

(** ** The lines of [VisgraphDoc] *)

Global Arguments fmt_ptr : simpl never.
Global Arguments fmt_num : simpl never.
Global Arguments read_str : simpl never.
Global Arguments esc : simpl never.
Global Arguments artifact_node : simpl never.
Global Arguments artifact_text : simpl never.
Global Arguments builder_node : simpl never.


Lemma lex_run_app s a b :
  lex_run s (a ++ b) = match lex_run s a with
    | Some (ts, s) => match lex_run s b with Some (ts', s) => Some (ts ++ ts', s) | None => None end
    | None => None end.
Proof.
  revert s. induction a as [|c a IH]; intros s; cbn [app lex_run]; [by destruct (lex_run s b) as [[??]|]|].
  destruct (lex_char s c) as [[t s']|]; [|done]. rewrite IH. destruct (lex_run s' a) as [[ts s'']|]; [|done].
  destruct (lex_run s'' b) as [[??]|]; [|done]. by rewrite app_assoc.
Qed.

Section Lines.
Context (pr : N → bool) (o : vopts).

Definition node_tok (b : bhandle) : list tok :=
  [TkStr (builder_node b); TkLBrack; TkWord (lit "label"); TkEq; TkStr (read_str (esc pr (builder_text o b))); TkRBrack].
Definition event_text (x : list devent * devent) : text :=
  let d := VDoc o (Some []) (generation x.1, instance_no x.1) in
  match x.2 with
  | DResolve b u => vd_builder_line pr d b ++ [10%N] ++ vd_builder_line pr d u ++ [10%N] ++ vd_edge_line b u ++ [10%N]
  | DBuild b a => vd_builder_line pr d b ++ [10%N] ++ vd_art_line d (vd_count d) a ++ [10%N] ++ vd_art_edge_line (vd_count d) b a ++ [10%N]
  | _ => []
  end.
Definition event_toks (x : list devent * devent) : list tok :=
  match x.2 with
  | DResolve b u => node_tok b ++ node_tok u ++ [TkStr (builder_node b); TkArrow; TkStr (builder_node u)]
  | DBuild b a => node_tok b ++
      [TkStr (artifact_node x.1 a); TkLBrack; TkWord (lit "label"); TkEq; TkStr (read_str (artifact_text o x.1 a)); TkComma;
       TkWord (lit "shape"); TkEq; TkWord (lit "box"); TkRBrack] ++
      [TkStr (builder_node b); TkArrow; TkStr (artifact_node x.1 a); TkLBrack; TkWord (lit "arrowhead"); TkEq; TkStr (lit "none"); TkRBrack]
  | _ => []
  end.

Lemma generation_snoc l e : generation (l ++ [e]) = if resets e then (generation l + 1)%N else generation l.
Proof.
  unfold generation, how_many. rewrite List.filter_app, app_length, Nat2N.inj_add. cbn. destruct (resets e); cbn; lia.
Qed.
Lemma instance_snoc l e : instance_no (l ++ [e]) =
  if resets e then 0%N else if is_build e then (instance_no l + 1)%N else instance_no l.
Proof.
  unfold instance_no. rewrite rev_unit. cbn. destruct (resets e); [done|]. unfold how_many. cbn. destruct (is_build e); cbn; lia.
Qed.

Lemma events_out l past w : let d := VDoc o (Some w) (generation past, instance_no past) in
  vd_events pr l d = Some (VDoc o (Some (w ++ (with_past past l ≫= event_text))) (generation (past ++ l), instance_no (past ++ l))).
Proof.
  revert past w. induction l as [|e l IH]; intros past w.
  - cbn. by rewrite !app_nil_r.
  - cbn [with_past mbind list_bind]. rewrite app_assoc. replace (past ++ e :: l) with ((past ++ [e]) ++ l) by (by rewrite <- app_assoc). cbn [vd_events].
    assert (vd_event pr e (VDoc o (Some w) (generation past, instance_no past)) =
      Some (VDoc o (Some (w ++ event_text (past, e))) (generation (past ++ [e]), instance_no (past ++ [e])))) as ->.
    { rewrite generation_snoc, instance_snoc. destruct e as [b u|b a| |b]; cbn -[lit fmt_ptr fmt_num fmt_debug app];
        rewrite ?app_nil_r, <- ?app_assoc; done. }
    cbn. by rewrite IH.
Qed.
Definition header : text := lit "strict digraph { graph [labeljust = l];" ++ [10%N].
Definition footer : text := lit "}" ++ [10%N].
Lemma document_eq l :
  vd_document pr o l = Some (header ++ (with_past [] l ≫= event_text) ++ footer) ∧
  vd_document_dropped pr o l = Some (header ++ (with_past [] l ≫= event_text) ++ footer).
Proof.
  unfold vd_document, vd_document_dropped. pose proof (events_out l [] header) as H. cbn zeta in H.
  change (vd_new o []) with (VDoc o (Some header) (generation [], instance_no [])). rewrite H.
  cbn -[lit app header]. rewrite <- !app_assoc. done.
Qed.

Ltac piece := eapply run_app; [lits; cbn; reflexivity|].
Ltac pplain H := eapply run_app; [apply run_plain, H|].
Ltac last := lits; cbn; reflexivity.
Lemma run_cast s t ts s' ts0 : lex_run s t = Some (ts0, s') → ts0 = ts → lex_run s t = Some (ts, s').
Proof. by intros ? <-. Qed.
Lemma run_node d b : vd_opts d = o → lex_run LxOut (vd_builder_line pr d b ++ [10%N]) = Some (node_tok b, LxOut).
Proof.
  intros Ho. unfold vd_builder_line, fmt_debug, node_tok, vd_builder_str. rewrite Ho, <- !app_assoc. eapply run_cast.
  - piece. pplain plain_ptr. piece. piece. eapply run_app; [apply run_dot_string; eexists; apply dot_string_esc|]. last.
  - done.
Qed.
Lemma run_edge b u : lex_run LxOut (vd_edge_line b u ++ [10%N]) = Some ([TkStr (builder_node b); TkArrow; TkStr (builder_node u)], LxOut).
Proof.
  unfold vd_edge_line. rewrite <- !app_assoc. eapply run_cast; [piece; pplain plain_ptr; piece; pplain plain_ptr; last|done].
Qed.
Lemma plain_artifact_node past a : plain (artifact_node past a).
Proof.
  unfold artifact_node. rewrite !plain_app. split_and!; try apply plain_num; try apply plain_ptr; pl.
Qed.
Lemma run_art d past a : vd_opts d = o → (∃ x, dot_string (artifact_text o past a) x) →
  lex_run LxOut (vd_art_line d (generation past, instance_no past) a ++ [10%N]) =
  Some ([TkStr (artifact_node past a); TkLBrack; TkWord (lit "label"); TkEq; TkStr (read_str (artifact_text o past a)); TkComma;
       TkWord (lit "shape"); TkEq; TkWord (lit "box"); TkRBrack], LxOut).
Proof.
  intros Ho Hx.
  assert (vd_art_line d (generation past, instance_no past) a =
    lit "  """ ++ artifact_node past a ++ lit """ [label = """ ++ artifact_text o past a ++ lit """, shape = box]") as ->.
  { unfold vd_art_line, artifact_node, artifact_text. rewrite Ho. cbn [fst snd]. rewrite <- !app_assoc. lits. cbn [app]. done. }
  rewrite <- !app_assoc. eapply run_cast.
  - piece. pplain plain_artifact_node. piece. eapply run_app; [by apply run_dot_string|]. last.
  - done.
Qed.
Lemma run_art_edge b past a :
  lex_run LxOut (vd_art_edge_line (generation past, instance_no past) b a ++ [10%N]) =
  Some ([TkStr (builder_node b); TkArrow; TkStr (artifact_node past a); TkLBrack; TkWord (lit "arrowhead"); TkEq; TkStr (lit "none"); TkRBrack], LxOut).
Proof.
  assert (vd_art_edge_line (generation past, instance_no past) b a =
    lit "  """ ++ fmt_ptr (bh_id b) ++ lit """ -> """ ++ artifact_node past a ++ lit """ [arrowhead = ""none""]") as ->.
  { unfold vd_art_edge_line, artifact_node. cbn [fst snd]. rewrite <- !app_assoc. done. }
  rewrite <- !app_assoc. eapply run_cast; [piece; pplain plain_ptr; piece; pplain plain_artifact_node; last|done].
Qed.
(** The texts of artifacts are such that they can stand in quotes. *)
Definition labels_fit (x : list devent * devent) : Prop :=
  match x.2 with DBuild _ a => ∃ t, dot_string (artifact_text o x.1 a) t | _ => True end.
Lemma run_event x : labels_fit x → lex_run LxOut (event_text x) = Some (event_toks x, LxOut).
Proof.
  destruct x as [past [b u|b a| |b]]; cbn [event_text event_toks labels_fit snd fst]; intros Hf; try done.
  - rewrite (app_assoc (vd_builder_line _ _ b)), (app_assoc (vd_builder_line _ _ u)).
    eapply run_app; [by apply run_node|]. eapply run_app; [by apply run_node|]. apply run_edge.
  - rewrite (app_assoc (vd_builder_line _ _ b)), (app_assoc (vd_art_line _ _ a)).
    eapply run_app; [by apply run_node|]. eapply run_app; [by apply run_art|]. apply run_art_edge.
Qed.
Lemma run_events l : Forall labels_fit l → lex_run LxOut (l ≫= event_text) = Some (l ≫= event_toks, LxOut).
Proof. induction 1 as [|x l Hx _ IH]; [done|]. cbn. eapply run_app; [by apply run_event|done]. Qed.

(** ** Parsing *)

Definition starts (ts : list tok) : Prop := match ts with TkStr _ :: _ | [TkRBrace] => True | _ => False end.
Lemma starts_toks l : starts ((l ≫= event_toks) ++ [TkRBrace]).
Proof. induction l as [|[past [b u|b a| |b]] l IH]; done. Qed.
Lemma parse_node n b rest : starts rest →
  p_stmts (S n) (node_tok b ++ rest) = match p_stmts n rest with Some l => Some (builder_stmt pr o b :: l) | None => None end.
Proof. intros Hs. unfold node_tok. lits. cbn. destruct rest as [|[]]; done. Qed.
Lemma p_stmts_S n t ts : p_stmts (S n) (TkStr t :: ts) =
  match p_stmt (TkStr t :: ts) with
    | Some (x, ts) =>
      match p_stmts n (match ts with TkSemi :: ts => ts | _ => ts end) with Some l => Some (x :: l) | None => None end
    | None => None
    end.
Proof. done. Qed.
Lemma p_stmts_W n t ts : p_stmts (S n) (TkWord t :: ts) =
  match p_stmt (TkWord t :: ts) with
    | Some (x, ts) =>
      match p_stmts n (match ts with TkSemi :: ts => ts | _ => ts end) with Some l => Some (x :: l) | None => None end
    | None => None
    end.
Proof. done. Qed.
Lemma parse_header rest : p_stmt (TkWord (lit "graph") :: TkLBrack :: TkWord (lit "labeljust") :: TkEq :: TkWord (lit "l") :: TkRBrack :: TkSemi :: rest) =
  Some (SDefault (lit "graph") [(lit "labeljust", lit "l")], TkSemi :: rest).
Proof. reflexivity. Qed.
Lemma parse_art_node x y rest : p_stmt (TkStr x :: TkLBrack :: TkWord (lit "label") :: TkEq :: TkStr y :: TkComma ::
       TkWord (lit "shape") :: TkEq :: TkWord (lit "box") :: TkRBrack :: rest) =
  Some (SNode x [(lit "label", y); (lit "shape", lit "box")], rest).
Proof. reflexivity. Qed.
Lemma parse_art_edge x y rest : p_stmt (TkStr x :: TkArrow :: TkStr y :: TkLBrack :: TkWord (lit "arrowhead") :: TkEq :: TkStr (lit "none") :: TkRBrack :: rest) =
  Some (SEdge x y [(lit "arrowhead", lit "none")], rest).
Proof. reflexivity. Qed.
Lemma parse_event x n rest : starts rest →
  p_stmts (length (event_toks x) + n) (event_toks x ++ rest) =
  match p_stmts (length (event_toks x) - 3 + n) rest with Some l => Some (event_stmts pr o x ++ l) | None => None end.
Proof.
  intros Hs. destruct x as [past [b u|b a| |b]]; cbn [event_toks event_stmts fst snd].
  - rewrite <- !app_assoc. change (length _ + n) with (S (S (S (12 + n)))).
    rewrite parse_node by done. rewrite parse_node by done. change (length _ - 3 + n) with (12 + n).
    assert (p_stmts (S (12 + n)) ([TkStr (builder_node b); TkArrow; TkStr (builder_node u)] ++ rest) =
      match p_stmts (12 + n) rest with Some l => Some (SEdge (builder_node b) (builder_node u) [] :: l) | None => None end) as ->.
    { generalize (12 + n). intros m. cbn. destruct rest as [|[]]; done. }
    by destruct (p_stmts (12 + n) rest).
  - rewrite <- !app_assoc. change (length _ + n) with (S (S (S (21 + n)))).
    rewrite parse_node by done. change (length _ - 3 + n) with (21 + n). generalize (21 + n). intros m.
    assert (p_stmts (S (S m)) ([TkStr (artifact_node past a); TkLBrack; TkWord (lit "label"); TkEq; TkStr (read_str (artifact_text o past a)); TkComma;
       TkWord (lit "shape"); TkEq; TkWord (lit "box"); TkRBrack] ++
      [TkStr (builder_node b); TkArrow; TkStr (artifact_node past a); TkLBrack; TkWord (lit "arrowhead"); TkEq; TkStr (lit "none"); TkRBrack] ++ rest) =
      match p_stmts m rest with Some l => Some ([SNode (artifact_node past a) [(lit "label", read_str (artifact_text o past a)); (lit "shape", lit "box")];
         SEdge (builder_node b) (artifact_node past a) [(lit "arrowhead", lit "none")]] ++ l) | None => None end) as ->.
    { cbn [app]. rewrite p_stmts_S.
      erewrite parse_art_node by done. cbn match. rewrite p_stmts_S. rewrite parse_art_edge by done. destruct rest as [|[]]; try done; by destruct (p_stmts m _). }
    by destruct (p_stmts m rest).
  - cbn. by destruct (p_stmts n rest).
  - cbn. by destruct (p_stmts n rest).
Qed.
Lemma parse_events l n : length (l ≫= event_toks) ≤ n →
  p_stmts n ((l ≫= event_toks) ++ [TkRBrace]) = Some (l ≫= event_stmts pr o).
Proof.
  revert n. induction l as [|x l IH]; intros n Hn; [by destruct n|]. cbn [mbind list_bind] in *. rewrite app_length in Hn.
  rewrite <- app_assoc. replace n with (length (event_toks x) + (n - length (event_toks x))) by lia.
  rewrite parse_event by apply starts_toks. by rewrite IH by lia.
Qed.

Lemma read_document l : Forall labels_fit (with_past [] l) →
  read_dot (header ++ (with_past [] l ≫= event_text) ++ footer) = Some (events_graph pr o l).
Proof.
  intros Hf. unfold read_dot.
  assert (lex LxOut (header ++ (with_past [] l ≫= event_text) ++ footer) =
    Some ([TkWord (lit "strict"); TkWord (lit "digraph"); TkLBrace; TkWord (lit "graph"); TkLBrack; TkWord (lit "labeljust"); TkEq; TkWord (lit "l"); TkRBrack; TkSemi]
      ++ (with_past [] l ≫= event_toks) ++ [TkRBrace])) as ->.
  { rewrite lex_app. change (lex_run LxOut header) with (Some ([TkWord (lit "strict"); TkWord (lit "digraph"); TkLBrace; TkWord (lit "graph"); TkLBrack; TkWord (lit "labeljust"); TkEq; TkWord (lit "l"); TkRBrack; TkSemi], LxOut)).
    cbn match. rewrite lex_app, run_events by done. done. }
  remember (with_past [] l) as wl eqn:Hwl.
  cbn [app p_graph]. rewrite bool_decide_eq_true_2 by done.
  cbn [length]. remember (length ((wl ≫= event_toks) ++ [TkRBrace])) as m eqn:Hm.
  rewrite p_stmts_W, parse_header.
  rewrite parse_events; [by subst wl|]. rewrite app_length in Hm. lia.
Qed.
End Lines.

(** ** Names *)

Lemma split_at (c : N) a b a' b' : c ∉ a → c ∉ a' → a ++ c :: b = a' ++ c :: b' → a = a' ∧ b = b'.
Proof.
  revert a'. induction a as [|x a IH]; intros [|y a'] Ha Ha' H; cbn in H; simplify_eq; try done.
  - set_solver.
  - set_solver.
  - destruct (IH a') as [-> ->]; [set_solver..|done|]. done.
Qed.
Lemma digits_not_in c l : Forall digit_char l → ¬ digit_char c → c ∉ l.
Proof. intros Hf Hc Hin. by apply (proj1 (Forall_forall _ _) Hf) in Hin. Qed.
Lemma num_not_in c n : ¬ digit_char c → c ∉ fmt_num n.
Proof. apply digits_not_in. apply fmt_radix_ok. lia. Qed.
Lemma ptr_not_in c p : ¬ digit_char c → c ∉ fmt_ptr p.
Proof.
  intros Hc Hin. unfold fmt_ptr in Hin. apply elem_of_app in Hin as [Hin|Hin].
  - destruct Hc. change (lit "0x") with [48%N; 120%N] in Hin. unfold digit_char. apply elem_of_cons in Hin as [->|Hin]; [lia|].
    apply elem_of_list_singleton in Hin as ->. lia.
  - revert Hin. apply digits_not_in; [|done]. apply fmt_radix_ok. lia.
Qed.
Lemma fmt_num_inj n m : fmt_num n = fmt_num m → n = m.
Proof. apply fmt_radix_inj. lia. Qed.
Lemma fmt_ptr_inj n m : fmt_ptr n = fmt_ptr m → n = m.
Proof. intros H. unfold fmt_ptr in H. apply app_inv_head in H. by apply fmt_radix_inj in H; [|lia]. Qed.
Lemma node_number past a past' a' : artifact_node past a = artifact_node past' a' →
  generation past = generation past' ∧ instance_no past = instance_no past' ∧ ah_ptr a = ah_ptr a'.
Proof.
  unfold artifact_node. lits. cbn [app]. intros H.
  apply split_at in H as [H1 H]; [|apply num_not_in; unfold digit_char; lia..].
  apply split_at in H as [H2 H]; [|apply num_not_in; unfold digit_char; lia..].
  by apply fmt_num_inj in H1, H2; apply fmt_ptr_inj in H.
Qed.
Lemma node_differs b past a : builder_node b ≠ artifact_node past a.
Proof.
  intros H. assert (46%N ∈ artifact_node past a) as Hin.
  { unfold artifact_node. apply elem_of_app. right. apply elem_of_app. left. lits. by left. }
  rewrite <- H in Hin. revert Hin. apply ptr_not_in. unfold digit_char. lia.
Qed.

Lemma with_past_lookup l past i p e : with_past past l !! i = Some (p, e) → l !! i = Some e ∧ p = past ++ take i l.
Proof.
  revert past i. induction l as [|x l IH]; intros past [|i] H; cbn in *; simplify_eq; [by rewrite app_nil_r|].
  destruct (IH _ _ H) as [H1 ->]. split; [done|]. by rewrite <- app_assoc.
Qed.
Lemma with_past_intro l i e : l !! i = Some e → with_past [] l !! i = Some (take i l, e).
Proof.
  assert (∀ past, l !! i = Some e → with_past past l !! i = Some (past ++ take i l, e)) as H; [|apply H].
  revert i. induction l as [|x l IH]; intros [|i] past Hl; cbn in *; simplify_eq; [by rewrite app_nil_r|].
  rewrite IH by done. by rewrite <- app_assoc.
Qed.
Lemma number_mono past l : 
  (generation past < generation (past ++ l) ∨ generation past = generation (past ++ l) ∧ instance_no past ≤ instance_no (past ++ l))%N.
Proof.
  induction l as [|e l IH] using rev_ind; [rewrite app_nil_r; lia|]. rewrite app_assoc, generation_snoc, instance_snoc.
  destruct (resets e), (is_build e); lia.
Qed.
Lemma number_unique past l b a :
  (generation past, instance_no past) ≠ (generation (past ++ DBuild b a :: l), instance_no (past ++ DBuild b a :: l)).
Proof.
  intros [= H1 H2]. replace (past ++ DBuild b a :: l) with ((past ++ [DBuild b a]) ++ l) in * by (by rewrite <- app_assoc).
  pose proof (number_mono (past ++ [DBuild b a]) l) as H. rewrite generation_snoc, instance_snoc in H. cbn in H. lia.
Qed.

(** ** [TextualDoc] *)

Lemma td_step o past w e :
  td_event e (TDoc o w (generation past, instance_no past)) =
  TDoc o (w ++ event_line o (past, e) ++ (if is_invalidate e then [] else [10%N])) (generation (past ++ [e]), instance_no (past ++ [e])).
Proof.
  rewrite generation_snoc, instance_snoc. destruct e as [b u|b a| |b]; cbn [td_event event_line is_invalidate resets is_build fst snd];
    unfold td_resolve, td_build, td_clear, td_invalidate, td_writeln, td_write, td_builder_str, name_text, addr_text;
    cbn [td_opts td_output td_count fst snd]; destruct (to_addresses o); cbn [td_opts td_output td_count fst snd];
    try (destruct (to_artifact_values o); cbn [td_opts td_output td_count fst snd]); rewrite <- ?app_assoc, ?app_nil_r; done.
Qed.
Lemma td_out o l : ∀ past w,
  td_output (td_events l (TDoc o w (generation past, instance_no past))) =
  w ++ (with_past past l ≫= λ x, event_line o x ++ (if is_invalidate x.2 then [] else [10%N])).
Proof.
  induction l as [|e l IH]; intros past w; [cbn; by rewrite app_nil_r|].
  unfold td_events in *. cbn [foldl]. rewrite td_step, IH. cbn [with_past mbind list_bind snd]. by rewrite <- app_assoc.
Qed.
Lemma lines_app t l : 10%N ∉ t → ∀ cur, lines_from cur (t ++ 10%N :: l) = (cur ++ t) :: lines_from [] l.
Proof.
  induction t as [|c t IH]; intros Ht cur; cbn; [by rewrite app_nil_r|].
  destruct (N.eqb_spec c 10) as [->|_]; [set_solver|]. rewrite IH by set_solver. by rewrite <- app_assoc.
Qed.
Lemma breaks_app (a b : text) : List.count_occ N.eq_dec (a ++ b) 10%N = List.count_occ N.eq_dec a 10%N + List.count_occ N.eq_dec b 10%N.
Proof. apply List.count_occ_app. Qed.
