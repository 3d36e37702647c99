(** The text that the doctors write: src/diagnostics/visgraph.rs and
    src/diagnostics/textual.rs.

    A text is a list of Unicode code points.  The [Write] behind a doctor is the
    text written so far; simplification: it never fails (the code does [unwrap]
    on each write, i.e. it panics), [flush] is dropped.  The counters are [N]
    instead of [u64]. *)
From stdpp Require Export list numbers sets.
From Coq Require Export NArith Lia.
From Coq Require Import String Ascii.

Definition text : Type := list N.
(** Literals. *)
Definition lit (s : string) : text := N_of_ascii <$> list_ascii_of_string s.
Arguments lit !s /.

(** ** [core::fmt] *)

(** [{}] of an unsigned integer ([base] 10), and [{:x}]. *)
Definition digit (n : N) : N := (if n <? 10 then 48 + n else 87 + n)%N.
Fixpoint digits (fuel : nat) (base n : N) : text :=
  match fuel with
  | O => []
  | S fuel => if (n <? base)%N then [digit n] else digits fuel base (n / base) ++ [digit (n mod base)]
  end.
Definition fmt_radix (base n : N) : text := digits (S (N.size_nat n)) base n.
Definition fmt_num (n : N) : text := fmt_radix 10 n.
(** [{:p}] of a pointer: [0x] and the address in hexadecimal digits. *)
Definition fmt_ptr (p : N) : text := lit "0x" ++ fmt_radix 16 p.
(** [{:?}] of a [str]: between double quotes, with [\0], [\t], [\r], [\n], the
    quote and the backslash escaped by a backslash, and others printed as they
    are or as [\u{..}].  Which ones are printed as they are is decided by the
    Unicode tables of the standard library, which are a parameter here. *)
Definition esc_char (printable : N → bool) (c : N) : text :=
  if (c =? 0)%N then lit "\0"
  else if (c =? 9)%N then lit "\t"
  else if (c =? 13)%N then lit "\r"
  else if (c =? 10)%N then lit "\n"
  else if (c =? 34)%N then lit "\""" 
  else if (c =? 92)%N then lit "\\"
  else if printable c then [c] else lit "\u{" ++ fmt_radix 16 c ++ lit "}".
Definition esc (printable : N → bool) (s : text) : text := s ≫= esc_char printable.
Definition fmt_debug (printable : N → bool) (s : text) : text := lit """" ++ esc printable s ++ lit """".

(** ** What a doctor is told *)

(** [BuilderHandle] (src/diagnostics/mod.rs:189-235): the id, [type_name] of the
    builder and its [{:#?}] text.  [ArtifactHandle] (123-159), where the value is
    just its address. *)
Record bhandle := BHandle { bh_id : N; bh_type : text; bh_dbg : text }.
Record ahandle := AHandle { ah_ptr : N; ah_type : text; ah_dbg : text }.
(** The calls of a [Doctor] (src/diagnostics/mod.rs:68-110). *)
Inductive devent :=
| DResolve (b u : bhandle)
| DBuild (b : bhandle) (a : ahandle)
| DClear
| DInvalidate (b : bhandle).

(** ** [VisgraphDoc] *)

(** [VisgraphDocOptions] (visgraph.rs:29-47); [vd_default] is [Default]. *)
Record vopts := VOpts { vo_builder_values : bool; vo_artifact_values : bool }.
Definition vd_default : vopts := VOpts false true.

(** [VisgraphDoc] (visgraph.rs:91-103), [W] being the text written. *)
Record vdoc := VDoc { vd_opts : vopts; vd_output : option text; vd_count : N * N }.

(** [writeln!(self.output(), ..).unwrap()]: [self.output()] is [as_mut().unwrap()]
    (visgraph.rs:132-134), which panics ([None] here) when the output was taken. *)
Definition vd_writeln (t : text) (d : vdoc) : option vdoc :=
  match vd_output d with
  | Some w => Some (VDoc (vd_opts d) (Some (w ++ t ++ [10%N])) (vd_count d))
  | None => None
  end.

(** [VisgraphDoc::new] (visgraph.rs:108-121). *)
Definition vd_new (o : vopts) (w : text) : vdoc :=
  VDoc o (Some (w ++ lit "strict digraph { graph [labeljust = l];" ++ [10%N])) (0%N, 0%N).
(** [builder_str] (visgraph.rs:123-130). *)
Definition vd_builder_str (d : vdoc) (b : bhandle) : text :=
  if vo_builder_values (vd_opts d) then bh_dbg b else bh_type b.
(** [finish] (visgraph.rs:136-138). *)
Definition vd_finish (d : vdoc) : option vdoc := vd_writeln (lit "}") d.
(** [into_inner] (visgraph.rs:142-145) before [self] is dropped: the output, and
    what is left of [self]. *)
Definition vd_into_inner (d : vdoc) : option (text * vdoc) :=
  match vd_finish d with
  | Some d => match vd_output d with Some w => Some (w, VDoc (vd_opts d) None (vd_count d)) | None => None end
  | None => None
  end.
(** [Drop] (visgraph.rs:148-154). *)
Definition vd_drop (d : vdoc) : option vdoc :=
  match vd_output d with Some _ => vd_finish d | None => Some d end.

Section Escape.
Context (printable : N → bool).

(** The three kinds of lines (visgraph.rs:160-164 and 167-171 and 188-192;
    173-177; 200-207; 209-215). *)
Definition vd_builder_line (d : vdoc) (b : bhandle) : text :=
  lit "  """ ++ fmt_ptr (bh_id b) ++ lit """ [label = " ++ fmt_debug printable (vd_builder_str d b) ++ lit "]".
Definition vd_edge_line (b u : bhandle) : text :=
  lit "  """ ++ fmt_ptr (bh_id b) ++ lit """ -> """ ++ fmt_ptr (bh_id u) ++ lit """".
Definition vd_art_line (d : vdoc) (count : N * N) (a : ahandle) : text :=
  let s := if vo_artifact_values (vd_opts d) then lit " :" ++ [10%N] ++ ah_dbg a else [] in
  lit "  """ ++ fmt_num count.1 ++ lit "." ++ fmt_num count.2 ++ lit "-" ++ fmt_ptr (ah_ptr a) ++
  lit """ [label = ""#" ++ fmt_num count.1 ++ lit "." ++ fmt_num count.2 ++ lit " " ++ ah_type a ++ s ++
  lit """, shape = box]".
Definition vd_art_edge_line (count : N * N) (b : bhandle) (a : ahandle) : text :=
  lit "  """ ++ fmt_ptr (bh_id b) ++ lit """ -> """ ++ fmt_num count.1 ++ lit "." ++ fmt_num count.2 ++ lit "-" ++
  fmt_ptr (ah_ptr a) ++ lit """ [arrowhead = ""none""]".

(** [Doctor::resolve] (visgraph.rs:157-181), [build] (184-222), [clear] (224-228)
    and [invalidate] (230-234). *)
Definition vd_resolve (b u : bhandle) (d : vdoc) : option vdoc :=
  d ← vd_writeln (vd_builder_line d b) d;
  d ← vd_writeln (vd_builder_line d u) d;
  vd_writeln (vd_edge_line b u) d.
Definition vd_build (b : bhandle) (a : ahandle) (d : vdoc) : option vdoc :=
  let count := vd_count d in
  d ← vd_writeln (vd_builder_line d b) d;
  d ← vd_writeln (vd_art_line d count a) d;
  d ← vd_writeln (vd_art_edge_line count b a) d;
  Some (VDoc (vd_opts d) (vd_output d) ((vd_count d).1, (vd_count d).2 + 1)%N).
Definition vd_clear (d : vdoc) : option vdoc :=
  Some (VDoc (vd_opts d) (vd_output d) ((vd_count d).1 + 1, 0)%N).
Definition vd_invalidate (b : bhandle) (d : vdoc) : option vdoc :=
  Some (VDoc (vd_opts d) (vd_output d) ((vd_count d).1 + 1, 0)%N).
Definition vd_event (e : devent) (d : vdoc) : option vdoc :=
  match e with
  | DResolve b u => vd_resolve b u d
  | DBuild b a => vd_build b a d
  | DClear => vd_clear d
  | DInvalidate b => vd_invalidate b d
  end.
(** A doctor's life: all events, oldest first. *)
Fixpoint vd_events (l : list devent) (d : vdoc) : option vdoc :=
  match l with [] => Some d | e :: l => d ← vd_event e d; vd_events l d end.
(** The document, if the doctor is ended by [into_inner], or by being dropped
    (then the text is what was written to the output). *)
Definition vd_document (o : vopts) (l : list devent) : option text :=
  d ← vd_events l (vd_new o []);
  x ← vd_into_inner d;
  d' ← vd_drop x.2;
  match vd_output d' with None => Some x.1 | Some _ => None end.
Definition vd_document_dropped (o : vopts) (l : list devent) : option text :=
  d ← vd_events l (vd_new o []);
  d ← vd_drop d;
  vd_output d.
End Escape.

(** ** [TextualDoc] *)

(** [TextualDocOptions] (textual.rs:44-81).  The type name abbreviation of the
    [tynm] crate ([tynm_m_n]) is a parameter. *)
Record topts := TOpts { to_builder_values : bool; to_artifact_values : bool; to_addresses : bool; to_tynm : text → text }.
(** [TextualDoc] (textual.rs:125-137). *)
Record tdoc := TDoc { td_opts : topts; td_output : text; td_count : N * N }.
Definition td_new (o : topts) (w : text) : tdoc := TDoc o w (0%N, 0%N).
Definition td_write (t : text) (d : tdoc) : tdoc := TDoc (td_opts d) (td_output d ++ t) (td_count d).
Definition td_writeln (t : text) (d : tdoc) : tdoc := td_write (t ++ [10%N]) d.
(** [builder_str] (textual.rs:171-178). *)
Definition td_builder_str (d : tdoc) (b : bhandle) : text :=
  if to_builder_values (td_opts d) then bh_dbg b else to_tynm (td_opts d) (bh_type b).

(** [resolve] (textual.rs:194-214). *)
Definition td_resolve (b u : bhandle) (d : tdoc) : tdoc :=
  let bs := td_builder_str d b in
  let us := td_builder_str d u in
  if to_addresses (td_opts d) then
    td_writeln (lit "resolves [" ++ fmt_ptr (bh_id b) ++ lit "] " ++ bs ++ lit " -> [" ++ fmt_ptr (bh_id u) ++ lit "] " ++ us) d
  else td_writeln (lit "resolves " ++ bs ++ lit " -> " ++ us) d.
(** [build] (textual.rs:217-256). *)
Definition td_build (b : bhandle) (a : ahandle) (d : tdoc) : tdoc :=
  let count := td_count d in
  let bs := td_builder_str d b in
  let d := if to_addresses (td_opts d) then
      td_write (lit "built #" ++ fmt_num count.1 ++ lit "." ++ fmt_num count.2 ++ lit " [" ++ fmt_ptr (bh_id b) ++ lit "] " ++
                bs ++ lit " => [" ++ fmt_ptr (ah_ptr a) ++ lit "] ") d
    else td_write (lit "built #" ++ fmt_num count.1 ++ lit "." ++ fmt_num count.2 ++ lit "  " ++ bs ++ lit " => ") d in
  let d := if to_artifact_values (td_opts d) then td_writeln (ah_dbg a) d
    else td_writeln (to_tynm (td_opts d) (ah_type a)) d in
  TDoc (td_opts d) (td_output d) ((td_count d).1, (td_count d).2 + 1)%N.
(** [clear] (textual.rs:258-269). *)
Definition td_clear (d : tdoc) : tdoc :=
  let d := td_writeln (lit "Clears generation #" ++ fmt_num (td_count d).1) d in
  TDoc (td_opts d) (td_output d) ((td_count d).1 + 1, 0)%N.
(** [invalidate] (textual.rs:271-296): [write!] only, no line break. *)
Definition td_invalidate (b : bhandle) (d : tdoc) : tdoc :=
  let d := td_write (lit "Invalidates generation #" ++ fmt_num (td_count d).1 ++ lit " targeting ") d in
  let bs := td_builder_str d b in
  let d := if to_addresses (td_opts d) then td_write (lit "[" ++ fmt_ptr (bh_id b) ++ lit "] " ++ bs) d
    else td_write bs d in
  TDoc (td_opts d) (td_output d) ((td_count d).1 + 1, 0)%N.
Definition td_event (e : devent) (d : tdoc) : tdoc :=
  match e with
  | DResolve b u => td_resolve b u d
  | DBuild b a => td_build b a d
  | DClear => td_clear d
  | DInvalidate b => td_invalidate b d
  end.
Definition td_events (l : list devent) (d : tdoc) : tdoc := foldl (λ d e, td_event e d) d l.
(** What [into_inner] (textual.rs:188-190) gives. *)
Definition td_document (o : topts) (l : list devent) : text := td_output (td_events l (td_new o [])).
