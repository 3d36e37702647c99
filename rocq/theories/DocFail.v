(** The bundled doctors when their output fails: src/diagnostics/visgraph.rs and
    src/diagnostics/textual.rs with a [Write] that returns errors (a full disk, a
    closed pipe).  Every write and flush is followed by [unwrap], i.e. the doctor
    panics; in Doc.v the output never fails. *)
From Verif Require Export Doc.
From Coq Require Import String.

(** The output: what was written, and the number of operations so far.  [fail k]
    says what becomes of operation [k]: [None] it succeeds; [Some n] it fails after
    [n] characters ([write!] hands over its text piece by piece). *)
Record dev := Dev { dv_text : text; dv_ops : nat }.
(** Returned, or panicked with the value at that point. *)
Inductive wres (A : Type) := WOk (d : A) | WPanic (d : A).
Global Arguments WOk {A} d.
Global Arguments WPanic {A} d.
Definition wbind {A} (x : wres A) (f : A → wres A) : wres A := match x with WOk d => f d | WPanic d => WPanic d end.
Definition wval {A} (x : wres A) : A := match x with WOk d | WPanic d => d end.
Definition wok {A} (x : wres A) : bool := match x with WOk _ => true | WPanic _ => false end.

Section Fail.
Context (fail : nat → option nat) (printable : N → bool).

(** [write!(output, ..)]; [flush] writes nothing. *)
Definition dev_write (t : text) (w : dev) : wres dev :=
  match fail (dv_ops w) with
  | None => WOk (Dev (dv_text w ++ t) (S (dv_ops w)))
  | Some n => WPanic (Dev (dv_text w ++ take n t) (S (dv_ops w)))
  end.

(** ** [VisgraphDoc] (visgraph.rs:91-103) *)
Record vdocx := VDocX { vx_opts : vopts; vx_output : option dev; vx_count : N * N }.
(** Without the output; for the texts of Doc.v, which do not depend on it. *)
Definition vx_plain (d : vdocx) : vdoc := VDoc (vx_opts d) None (vx_count d).

(** [write!(self.output(), ..).unwrap()] (visgraph.rs:132-134). *)
Definition vx_write (t : text) (d : vdocx) : wres vdocx :=
  match vx_output d with
  | Some w =>
    match dev_write t w with
    | WOk w => WOk (VDocX (vx_opts d) (Some w) (vx_count d))
    | WPanic w => WPanic (VDocX (vx_opts d) (Some w) (vx_count d))
    end
  | None => WPanic d
  end.
Definition vx_writeln (t : text) : vdocx → wres vdocx := vx_write (t ++ [10%N]).
Definition vx_flush : vdocx → wres vdocx := vx_write [].

(** [new] (visgraph.rs:108-121): no doctor if it panics. *)
Definition vx_new (o : vopts) (w : dev) : option vdocx :=
  match dev_write (lit "strict digraph { graph [labeljust = l];" ++ [10%N]) w with
  | WOk w => Some (VDocX o (Some w) (0%N, 0%N))
  | WPanic _ => None
  end.
(** [finish] (136-138), [Drop] (148-154). *)
Definition vx_finish (d : vdocx) : wres vdocx := vx_writeln (lit "}") d.
Definition vx_drop (d : vdocx) : wres vdocx := match vx_output d with Some _ => vx_finish d | None => WOk d end.
(** [into_inner] (142-145): [self] is dropped at the end, or, if [finish] panics, while
    unwinding; then a second panic aborts the process. *)
Inductive inner := IGot (w : dev) | IPanic (w : option dev) | IAbort (w : option dev).
Definition vx_into_inner (d : vdocx) : inner :=
  match vx_finish d with
  | WOk d1 =>
    match vx_output d1 with
    | Some w =>
      match vx_drop (VDocX (vx_opts d1) None (vx_count d1)) with
      | WOk _ => IGot w
      | WPanic d2 => IPanic (vx_output d2)
      end
    | None => IPanic None
    end
  | WPanic d1 =>
    match vx_drop d1 with
    | WOk d2 => IPanic (vx_output d2)
    | WPanic d2 => IAbort (vx_output d2)
    end
  end.

(** [resolve] (157-181), [build] (184-222), [clear] (224-228), [invalidate]
    (230-234). *)
Definition vx_resolve (b u : bhandle) (d : vdocx) : wres vdocx :=
  wbind (vx_writeln (vd_builder_line printable (vx_plain d) b) d) (λ d,
  wbind (vx_writeln (vd_builder_line printable (vx_plain d) u) d) (λ d,
  wbind (vx_writeln (vd_edge_line b u) d) (λ d,
  vx_flush d))).
Definition vx_build (b : bhandle) (a : ahandle) (d : vdocx) : wres vdocx :=
  let count := vx_count d in
  wbind (vx_writeln (vd_builder_line printable (vx_plain d) b) d) (λ d,
  wbind (vx_writeln (vd_art_line (vx_plain d) count a) d) (λ d,
  wbind (vx_writeln (vd_art_edge_line count b a) d) (λ d,
  wbind (vx_flush d) (λ d,
  WOk (VDocX (vx_opts d) (vx_output d) ((vx_count d).1, (vx_count d).2 + 1)%N))))).
Definition vx_clear (d : vdocx) : wres vdocx :=
  WOk (VDocX (vx_opts d) (vx_output d) ((vx_count d).1 + 1, 0)%N).
Definition vx_event (e : devent) (d : vdocx) : wres vdocx :=
  match e with
  | DResolve b u => vx_resolve b u d
  | DBuild b a => vx_build b a d
  | DClear | DInvalidate _ => vx_clear d
  end.

(** ** [TextualDoc] (textual.rs:125-137) *)
Record tdocx := TDocX { tx_opts : topts; tx_output : dev; tx_count : N * N }.
Definition tx_new (o : topts) (w : dev) : tdocx := TDocX o w (0%N, 0%N).
Definition tx_plain (d : tdocx) : tdoc := TDoc (tx_opts d) [] (tx_count d).
Definition tx_write (t : text) (d : tdocx) : wres tdocx :=
  match dev_write t (tx_output d) with
  | WOk w => WOk (TDocX (tx_opts d) w (tx_count d))
  | WPanic w => WPanic (TDocX (tx_opts d) w (tx_count d))
  end.
Definition tx_writeln (t : text) : tdocx → wres tdocx := tx_write (t ++ [10%N]).
Definition tx_bs (d : tdocx) (b : bhandle) : text := td_builder_str (tx_plain d) b.

(** [resolve] (textual.rs:194-214). *)
Definition tx_resolve (b u : bhandle) (d : tdocx) : wres tdocx :=
  let bs := tx_bs d b in
  let us := tx_bs d u in
  if to_addresses (tx_opts d) then
    tx_writeln (lit "resolves [" ++ fmt_ptr (bh_id b) ++ lit "] " ++ bs ++ lit " -> [" ++ fmt_ptr (bh_id u) ++ lit "] " ++ us) d
  else tx_writeln (lit "resolves " ++ bs ++ lit " -> " ++ us) d.
(** [build] (textual.rs:217-256). *)
Definition tx_build (b : bhandle) (a : ahandle) (d : tdocx) : wres tdocx :=
  let count := tx_count d in
  let bs := tx_bs d b in
  wbind (if to_addresses (tx_opts d) then
      tx_write (lit "built #" ++ fmt_num count.1 ++ lit "." ++ fmt_num count.2 ++ lit " [" ++ fmt_ptr (bh_id b) ++ lit "] " ++
                bs ++ lit " => [" ++ fmt_ptr (ah_ptr a) ++ lit "] ") d
    else tx_write (lit "built #" ++ fmt_num count.1 ++ lit "." ++ fmt_num count.2 ++ lit "  " ++ bs ++ lit " => ") d) (λ d,
  wbind (if to_artifact_values (tx_opts d) then tx_writeln (ah_dbg a) d
    else tx_writeln (to_tynm (tx_opts d) (ah_type a)) d) (λ d,
  wbind (tx_write [] d) (λ d,
  WOk (TDocX (tx_opts d) (tx_output d) ((tx_count d).1, (tx_count d).2 + 1)%N)))).
(** [clear] (textual.rs:258-269). *)
Definition tx_clear (d : tdocx) : wres tdocx :=
  wbind (tx_writeln (lit "Clears generation #" ++ fmt_num (tx_count d).1) d) (λ d,
  WOk (TDocX (tx_opts d) (tx_output d) ((tx_count d).1 + 1, 0)%N)).
(** [invalidate] (textual.rs:271-296). *)
Definition tx_invalidate (b : bhandle) (d : tdocx) : wres tdocx :=
  wbind (tx_write (lit "Invalidates generation #" ++ fmt_num (tx_count d).1 ++ lit " targeting ") d) (λ d,
  let bs := tx_bs d b in
  wbind (if to_addresses (tx_opts d) then tx_write (lit "[" ++ fmt_ptr (bh_id b) ++ lit "] " ++ bs) d
    else tx_write bs d) (λ d,
  WOk (TDocX (tx_opts d) (tx_output d) ((tx_count d).1 + 1, 0)%N))).
Definition tx_event (e : devent) (d : tdocx) : wres tdocx :=
  match e with
  | DResolve b u => tx_resolve b u d
  | DBuild b a => tx_build b a d
  | DClear => tx_clear d
  | DInvalidate b => tx_invalidate b d
  end.

(** A doctor told all events, every panic caught (by the user of the cache: the
    doctor stays in the cache and is told about later events as well).  Also: which
    events were reported without panic. *)
Fixpoint vx_events (l : list devent) (d : vdocx) : list bool * vdocx :=
  match l with
  | [] => ([], d)
  | e :: l => let x := vx_event e d in let y := vx_events l (wval x) in (wok x :: y.1, y.2)
  end.
Fixpoint tx_events (l : list devent) (d : tdocx) : list bool * tdocx :=
  match l with
  | [] => ([], d)
  | e :: l => let x := tx_event e d in let y := tx_events l (wval x) in (wok x :: y.1, y.2)
  end.
End Fail.

(** ** Specification *)

(** What a doctor with a reliable output writes about [e] after the events
    [past]. *)
Definition vd_says (pr : N → bool) (o : vopts) (past : list devent) (e : devent) (t : text) : Prop :=
  ∃ x y w, vd_events pr past (vd_new o []) = Some x ∧ vd_events pr (past ++ [e]) (vd_new o []) = Some y ∧
    vd_output x = Some w ∧ vd_output y = Some (w ++ t).
Definition td_says (o : topts) (past : list devent) (e : devent) (t : text) : Prop :=
  td_document o (past ++ [e]) = td_document o past ++ t.

(** The events reported without panic, given which were. *)
Fixpoint reported (l : list devent) (r : list bool) : list devent :=
  match l, r with
  | e :: l, b :: r => if b then e :: reported l r else reported l r
  | _, _ => []
  end.
(** What was written, event by event: of each event a beginning of what a reliable
    doctor says after the events reported before it, all of that if it was
    reported. *)
Definition pieced (says : list devent → devent → text → Prop) (l : list devent) (r : list bool) (ps : list text) : Prop :=
  List.length r = List.length l ∧ List.length ps = List.length l ∧
  ∀ i e b (p : text), l !! i = Some e → r !! i = Some b → ps !! i = Some p →
    ∃ t, says (reported (take i l) (take i r)) e t ∧ p `prefix_of` t ∧ (b = true → p = t).
