(** What it means that a text is a DOT document, and which graph it describes.
    Independent of the code: this is a reader for the part of the DOT language
    (https://graphviz.org/doc/info/lang.html) with statement lists of node, edge,
    attribute and [ID = ID] statements; no ports, subgraphs, chained edges, HTML
    strings, comments or string concatenation.  Also: the lines of a text. *)
From Verif Require Export Doc.
From Coq Require Import String.

(** ** Lexing *)

Inductive tok :=
| TkStr (body : text) | TkWord (w : text)
| TkLBrace | TkRBrace | TkLBrack | TkRBrack | TkEq | TkComma | TkSemi | TkArrow.

Definition is_space (c : N) : bool := (c =? 32)%N || (c =? 9)%N || (c =? 10)%N || (c =? 13)%N.
(** Letters, digits, underscore, dot, and all beyond ASCII. *)
Definition is_word (c : N) : bool :=
  ((48 <=? c) && (c <=? 57) || (65 <=? c) && (c <=? 90) || (97 <=? c) && (c <=? 122) || (c =? 95) || (c =? 46) || (128 <=? c))%N.

(** Where the lexer is: between tokens, in a word, in a quoted string, behind a
    backslash in it, behind a [-]. *)
Inductive lexst := LxOut | LxWord (w : text) | LxStr (b : text) | LxEsc (b : text) | LxDash.

(** The first character of a token. *)
Definition lex_first (c : N) : option (list tok * lexst) :=
  if is_space c then Some ([], LxOut)
  else if (c =? 34)%N then Some ([], LxStr [])
  else if (c =? 45)%N then Some ([], LxDash)
  else if (c =? 123)%N then Some ([TkLBrace], LxOut)
  else if (c =? 125)%N then Some ([TkRBrace], LxOut)
  else if (c =? 91)%N then Some ([TkLBrack], LxOut)
  else if (c =? 93)%N then Some ([TkRBrack], LxOut)
  else if (c =? 61)%N then Some ([TkEq], LxOut)
  else if (c =? 44)%N then Some ([TkComma], LxOut)
  else if (c =? 59)%N then Some ([TkSemi], LxOut)
  else if is_word c then Some ([], LxWord [c])
  else None.

(** In a quoted string the only escape that the lexer interprets is that of the
    quote (and of the line break, which continues the line); other backslashes
    stay in the string, for the escapes of labels, see [shown]. *)
Definition lex_char (s : lexst) (c : N) : option (list tok * lexst) :=
  match s with
  | LxOut => lex_first c
  | LxWord w =>
    if is_word c then Some ([], LxWord (w ++ [c]))
    else match lex_first c with Some (t, s) => Some (TkWord w :: t, s) | None => None end
  | LxStr b =>
    if (c =? 34)%N then Some ([TkStr b], LxOut)
    else if (c =? 92)%N then Some ([], LxEsc b)
    else Some ([], LxStr (b ++ [c]))
  | LxEsc b =>
    if (c =? 34)%N then Some ([], LxStr (b ++ [c]))
    else if (c =? 10)%N then Some ([], LxStr b)
    else Some ([], LxStr (b ++ [92%N; c]))
  | LxDash => if (c =? 62)%N then Some ([TkArrow], LxOut) else None
  end.
Fixpoint lex (s : lexst) (l : text) : option (list tok) :=
  match l with
  | [] => match s with LxOut => Some [] | LxWord w => Some [TkWord w] | _ => None end
  | c :: l =>
    match lex_char s c with
    | Some (t, s) => match lex s l with Some ts => Some (t ++ ts) | None => None end
    | None => None
    end
  end.

(** ** Parsing *)

Inductive stmt :=
| SNode (id : text) (attrs : list (text * text))
| SEdge (a b : text) (attrs : list (text * text))
| SDefault (what : text) (attrs : list (text * text))
| SSet (a b : text).
Record graph := Graph { g_strict : bool; g_directed : bool; g_stmts : list stmt }.

Definition keyword (w : text) : bool :=
  bool_decide (w ∈ lit <$> ["strict"; "graph"; "digraph"; "node"; "edge"; "subgraph"]%string).
Definition tok_id (t : tok) : option text :=
  match t with TkStr b => Some b | TkWord w => if keyword w then None else Some w | _ => None end.

(** Inside of brackets: [ID = ID], with optional [,] or [;] between. *)
Fixpoint p_attrs (ts : list tok) : option (list (text * text) * list tok) :=
  match ts with
  | TkRBrack :: ts => Some ([], ts)
  | x :: TkEq :: y :: ts =>
    match tok_id x, tok_id y with
    | Some a, Some b =>
      match (match ts with TkComma :: ts | TkSemi :: ts => p_attrs ts | _ => p_attrs ts end) with
      | Some (l, ts) => Some ((a, b) :: l, ts)
      | None => None
      end
    | _, _ => None
    end
  | _ => None
  end.
(** Optional brackets. *)
Definition p_opt_attrs (ts : list tok) : option (list (text * text) * list tok) :=
  match ts with TkLBrack :: ts => p_attrs ts | _ => Some ([], ts) end.
Definition p_stmt (ts : list tok) : option (stmt * list tok) :=
  match ts with
  | x :: TkEq :: y :: ts =>
    match tok_id x, tok_id y with Some a, Some b => Some (SSet a b, ts) | _, _ => None end
  | x :: TkArrow :: y :: ts =>
    match tok_id x, tok_id y, p_opt_attrs ts with
    | Some a, Some b, Some (l, ts) => Some (SEdge a b l, ts)
    | _, _, _ => None
    end
  | TkWord w :: TkLBrack :: ts =>
    match p_attrs ts with
    | Some (l, ts) =>
      if bool_decide (w ∈ lit <$> ["graph"; "node"; "edge"]%string) then Some (SDefault w l, ts)
      else if keyword w then None else Some (SNode w l, ts)
    | None => None
    end
  | x :: ts =>
    match tok_id x, p_opt_attrs ts with Some a, Some (l, ts) => Some (SNode a l, ts) | _, _ => None end
  | [] => None
  end.
(** Statements up to the closing brace, which must be the end. *)
Fixpoint p_stmts (fuel : nat) (ts : list tok) : option (list stmt) :=
  match fuel, ts with
  | _, [TkRBrace] => Some []
  | S fuel, ts =>
    match p_stmt ts with
    | Some (x, ts) =>
      match p_stmts fuel (match ts with TkSemi :: ts => ts | _ => ts end) with
      | Some l => Some (x :: l)
      | None => None
      end
    | None => None
    end
  | O, _ => None
  end.
Definition p_graph (ts : list tok) : option graph :=
  match ts with
  | TkWord s :: TkWord d :: TkLBrace :: ts =>
    if bool_decide (s = lit "strict" ∧ d = lit "digraph") then
      match p_stmts (S (List.length ts)) ts with Some l => Some (Graph true true l) | None => None end
    else None
  | TkWord d :: TkLBrace :: ts =>
    if bool_decide (d = lit "digraph") then
      match p_stmts (S (List.length ts)) ts with Some l => Some (Graph false true l) | None => None end
    else None
  | _ => None
  end.
Definition read_dot (t : text) : option graph :=
  match lex LxOut t with Some ts => p_graph ts | None => None end.

(** How a label is shown ([escString]): [\n] is a line break, another backslash
    stands for the character behind it. *)
Fixpoint shown (l : text) : text :=
  match l with
  | 92%N :: c :: l => (if (c =? 110)%N then 10%N else c) :: shown l
  | c :: l => c :: shown l
  | [] => []
  end.

(** ** The events *)

(** Generation and number of the build that follows the events [l] (oldest
    first): how often the cache was cleared or something invalidated, and how
    often something was built since. *)
Definition resets (e : devent) : bool := match e with DClear | DInvalidate _ => true | _ => false end.
Definition is_build (e : devent) : bool := match e with DBuild _ _ => true | _ => false end.
Definition how_many (P : devent → bool) (l : list devent) : N := N.of_nat (List.length (List.filter P l)).
Fixpoint take_until (P : devent → bool) (l : list devent) : list devent :=
  match l with [] => [] | e :: l => if P e then [] else e :: take_until P l end.
Definition generation (l : list devent) : N := how_many resets l.
Definition instance_no (l : list devent) : N := how_many is_build (take_until resets (rev l)).

(** Names of nodes. *)
Definition builder_node (b : bhandle) : text := fmt_ptr (bh_id b).
Definition artifact_node (before : list devent) (a : ahandle) : text :=
  fmt_num (generation before) ++ lit "." ++ fmt_num (instance_no before) ++ lit "-" ++ fmt_ptr (ah_ptr a).
(** Texts that options select. *)
Definition builder_text (o : vopts) (b : bhandle) : text := if vo_builder_values o then bh_dbg b else bh_type b.
Definition artifact_text (o : vopts) (before : list devent) (a : ahandle) : text :=
  lit "#" ++ fmt_num (generation before) ++ lit "." ++ fmt_num (instance_no before) ++ lit " " ++ ah_type a ++
  (if vo_artifact_values o then lit " :" ++ [10%N] ++ ah_dbg a else []).

(** Every event with those before it. *)
Fixpoint with_past (past l : list devent) : list (list devent * devent) :=
  match l with [] => [] | e :: l => (past, e) :: with_past (past ++ [e]) l end.

(** The lines of a text: what is between line breaks. *)
Fixpoint lines_from (cur : text) (l : text) : list text :=
  match l with
  | [] => match cur with [] => [] | _ => [cur] end
  | c :: l => if (c =? 10)%N then cur :: lines_from [] l else lines_from (cur ++ [c]) l
  end.
Definition lines (t : text) : list text := lines_from [] t.

(** ** The graph that [VisgraphDoc] should describe *)

(** The content of a quoted string with the given characters between the
    quotes. *)
Definition dot_string (raw x : text) : Prop := lex LxOut (lit """" ++ raw ++ lit """") = Some [TkStr x].
Definition read_str (raw : text) : text :=
  match lex LxOut (lit """" ++ raw ++ lit """") with Some [TkStr x] => x | _ => [] end.

(** For a resolve: a node for each of the two builders and an edge between them.
    For a build: a node for the builder, one for the artifact, and an edge. *)
Definition builder_stmt (printable : N → bool) (o : vopts) (b : bhandle) : stmt :=
  SNode (builder_node b) [(lit "label", read_str (esc printable (builder_text o b)))].
Definition event_stmts (printable : N → bool) (o : vopts) (x : list devent * devent) : list stmt :=
  match x.2 with
  | DResolve b u =>
    [builder_stmt printable o b; builder_stmt printable o u; SEdge (builder_node b) (builder_node u) []]
  | DBuild b a =>
    [builder_stmt printable o b;
     SNode (artifact_node x.1 a) [(lit "label", read_str (artifact_text o x.1 a)); (lit "shape", lit "box")];
     SEdge (builder_node b) (artifact_node x.1 a) [(lit "arrowhead", lit "none")]]
  | DClear | DInvalidate _ => []
  end.
Definition events_graph (printable : N → bool) (o : vopts) (l : list devent) : graph :=
  Graph true true (SDefault (lit "graph") [(lit "labeljust", lit "l")] :: (with_past [] l ≫= event_stmts printable o)).

(** ** The log that [TextualDoc] should write *)

(** How the options show a builder, an address. *)
Definition name_text (o : topts) (b : bhandle) : text := if to_builder_values o then bh_dbg b else to_tynm o (bh_type b).
Definition addr_text (o : topts) (p : N) : text := if to_addresses o then lit "[" ++ fmt_ptr p ++ lit "] " else [].
(** The line for one event. *)
Definition event_line (o : topts) (x : list devent * devent) : text :=
  match x.2 with
  | DResolve b u =>
    lit "resolves " ++ addr_text o (bh_id b) ++ name_text o b ++ lit " -> " ++ addr_text o (bh_id u) ++ name_text o u
  | DBuild b a =>
    lit "built #" ++ fmt_num (generation x.1) ++ lit "." ++ fmt_num (instance_no x.1) ++ lit " " ++
    (if to_addresses o then addr_text o (bh_id b) else lit " ") ++ name_text o b ++ lit " => " ++ addr_text o (ah_ptr a) ++
    (if to_artifact_values o then ah_dbg a else to_tynm o (ah_type a))
  | DClear => lit "Clears generation #" ++ fmt_num (generation x.1)
  | DInvalidate b =>
    lit "Invalidates generation #" ++ fmt_num (generation x.1) ++ lit " targeting " ++ addr_text o (bh_id b) ++ name_text o b
  end.
Definition is_invalidate (e : devent) : bool := match e with DInvalidate _ => true | _ => false end.
