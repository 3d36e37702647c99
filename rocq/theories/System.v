(** The public API ([Cache], src/cache.rs) as operations, and histories. *)
From Verif Require Export Build.

(** Operations of the user.  [f] is what the user does through a [&mut]. *)
Inductive op :=
| OAlloc (d : bdef)                      (* Blueprint::new *)
| ODrop (o : obj)                        (* drop the last Blueprint *)
| OGet (h : how) (o : obj)               (* get, get_ref, get_cloned *)
| OGetMut (o : obj) (f : val → val)      (* get_mut *)
| OLookup (h : how) (o : obj)            (* lookup, lookup_ref, lookup_cloned *)
| OLookupMut (o : obj) (f : val → val)   (* lookup_mut *)
| ODynState (o : obj)                    (* dyn_state *)
| ODynStateMut (o : obj) (f : val → val) (* dyn_state_mut *)
| OGetDynState (o : obj)                 (* get_dyn_state *)
| OInvalidate (o : obj)
| OPurge (o : obj)
| OClearArtifacts
| OClearAll
| OGc
| OIsKnown (o : obj)
| ONumKnown.

(** What an operation returns. *)
Inductive out :=
| OutUnit
| OutObj (o : obj)
| OutRes (r : rval)
| OutOpt (r : option rval)
| OutVal (v : val)
| OutOptVal (v : option val)
| OutBool (b : bool)
| OutNum (n : nat).

Section System.
Context (E : env).

(** Lifting a cache-level function that needs iteration orders; the clock
    advances. *)
Definition lift (r : cres) (s : st) : outcome out :=
  match r with
  | COk c => Done OutUnit (tock (set_ch c s))
  | CPanic k c => Panic k (tock (set_ch c s))
  | CFuel => NoFuel
  end.

Definition prio (s : st) : nat → nat → N → N := e_prio E (tick s).

(** Writing through the [&mut Artifact]: the bin keeps its identity. *)
Definition write_art (a : addr) (f : val → val) (c : cache) : cache :=
  set_artifacts (alter (λ e, Art (ar_ty e) (Bin (bin_ptr (ar_bin e)) (f (bin_val (ar_bin e))))) a) c.

(** [Cache::lookup_mut] (cache.rs:447-458, internal.rs:367-399). *)
Definition op_lookup_mut (o : obj) (f : val → val) (s : st) : outcome out :=
  match e_kind E, promise o s with
  | Boxed, Some (d, a) =>
    match lookup_mut (e_dbg E) (prio s) a (bd_aty d) (ch s) with
    | (COk c, LSome b) => Done (OutOpt (Some (RvVal (bin_val b)))) (tock (set_ch (write_art a f c) s))
    | (COk c, LNone) => Done (OutOpt None) (tock (set_ch c s))
    | (COk c, LPanic k) => Panic k (tock (set_ch c s))
    | (CPanic k c, _) => Panic k (tock (set_ch c s))
    | (CFuel, _) => NoFuel
    end
  | _, _ => Illegal
  end.

(** [Cache::get_mut] (cache.rs:607-618, internal.rs:555-577): [lookup_mut], and
    if that found something [lookup_mut] again; otherwise build. *)
Definition op_get_mut (fuel : nat) (o : obj) (f : val → val) (s : st) : outcome out :=
  match e_kind E, promise o s with
  | Boxed, Some (d, a) =>
    match lookup_mut (e_dbg E) (prio s) a (bd_aty d) (ch s) with
    | (COk c, LSome _) =>
      let s1 := tock (set_ch c s) in
      match lookup_mut (e_dbg E) (prio s1) a (bd_aty d) (ch s1) with
      | (COk c, LSome b) => Done (OutRes (RvVal (bin_val b))) (tock (set_ch (write_art a f c) s1))
      | (COk c, LNone) => Panic PkUnwrap (tock (set_ch c s1))
      | (COk c, LPanic k) => Panic k (tock (set_ch c s1))
      | (CPanic k c, _) => Panic k (tock (set_ch c s1))
      | (CFuel, _) => NoFuel
      end
    | (COk c, LNone) =>
      match build E fuel o (tock (set_ch c s)) with
      | Done (BOk e) s' =>
        if (ar_ty e =? bd_aty d)%N
        then Done (OutRes (RvVal (bin_val (ar_bin e)))) (set_ch (write_art a f (ch s')) s')
        else Panic PkDowncast s'
      | Done (BErr e) s' => Done (OutRes (RvErr e)) s'
      | Panic k s' => Panic k s'
      | NoFuel => NoFuel
      | Illegal => Illegal
      end
    | (COk c, LPanic k) => Panic k (tock (set_ch c s))
    | (CPanic k c, _) => Panic k (tock (set_ch c s))
    | (CFuel, _) => NoFuel
    end
  | _, _ => Illegal
  end.

(** One API call.  [fuel] bounds the depth of nested builds. *)
Definition step (fuel : nat) (x : op) (s : st) : outcome out :=
  match x with
  | OAlloc d =>
    match alloc E d s with Some (o, s') => Done (OutObj o) s' | None => Illegal end
  | ODrop o =>
    match drop_obj o s with Some s' => Done OutUnit s' | None => Illegal end
  | OGet h o =>                         (* cache.rs:509-563, 639-651 *)
    match get E fuel h o s with
    | Done r s' => Done (OutRes r) s'
    | Panic k s' => Panic k s'
    | NoFuel => NoFuel
    | Illegal => Illegal
    end
  | OGetMut o f => op_get_mut fuel o f s
  | OLookup h o =>                      (* cache.rs:352-404, 477-489 *)
    match promise o s with
    | None => Illegal
    | Some (d, a) =>
      if how_legal E h then
        match lookup_art (e_dbg E) (ch s) a (bd_aty d) with
        | LPanic k => Panic k s
        | LNone => Done (OutOpt None) s
        | LSome b => Done (OutOpt (Some (conv h b))) s
        end
      else Illegal
    end
  | OLookupMut o f => op_lookup_mut o f s
  | ODynState o =>                      (* cache.rs:683-692, internal.rs:703-716 *)
    match promise o s with
    | None => Illegal
    | Some (d, a) =>
      match ensure_dyn_state a o (bd_sty d) (bd_init d) (ch s) with
      | (c, inr v) => Done (OutVal v) (set_ch c s)
      | (c, inl k) => Panic k (set_ch c s)
      end
    end
  | ODynStateMut o f =>                 (* cache.rs:704-713, internal.rs:683-699 *)
    match promise o s with
    | None => Illegal
    | Some (d, a) =>
      match invalidate_by_id (e_dbg E) (prio s 0) a (ch s) with
      | COk c =>
        let s1 := log (EInvalidate o) (tock (set_ch c s)) in
        match ensure_dyn_state a o (bd_sty d) (bd_init d) (ch s1) with
        | (c, inr v) => Done (OutVal v) (set_ch (set_dyn_states <[a := Dst (bd_sty d) (f v)]> c) s1)
        | (c, inl k) => Panic k (set_ch c s1)
        end
      | CPanic k c => Panic k (tock (set_ch c s))
      | CFuel => NoFuel
      end
    end
  | OGetDynState o =>                   (* cache.rs:660-669 *)
    match promise o s with
    | None => Illegal
    | Some (d, a) =>
      match get_dyn_state (e_dbg E) a (bd_sty d) (ch s) with
      | inl k => Panic k s
      | inr v => Done (OutOptVal v) s
      end
    end
  | OInvalidate o =>                    (* cache.rs:767-777, internal.rs:864-879 *)
    match promise o s with
    | None => Illegal
    | Some (_, a) =>
      match lift (invalidate_by_id (e_dbg E) (prio s 0) a (ch s)) s with
      | Done r s' => Done r (log (EInvalidate o) s')
      | x => x
      end
    end
  | OPurge o =>                         (* cache.rs:741-751, internal.rs:733-757 *)
    match promise o s with
    | None => Illegal
    | Some (_, a) =>
      match lift (purge (e_dbg E) (prio s 0) a (ch s)) s with
      | Done r s' => Done r (log (EInvalidate o) s')
      | x => x
      end
    end
  | OClearArtifacts => Done OutUnit (set_ch (clear_artifacts (ch s)) s)       (* cache.rs:717-719 *)
  | OClearAll => Done OutUnit (log EClear (set_ch (clear_all (ch s)) s))      (* cache.rs:724-726 *)
  | OGc => lift (garbage_collection (e_dbg E) (prio s) (alive s) (ch s)) s    (* cache.rs:803-805 *)
  | OIsKnown o =>                       (* cache.rs:325-334 *)
    match promise o s with
    | None => Illegal
    | Some (_, a) => Done (OutBool (is_known (ch s) a)) s
    end
  | ONumKnown => Done (OutNum (number_of_known (ch s))) s                     (* cache.rs:825-827 *)
  end.

(** After which panics the cache can go on being used (the panic having been
    caught): a builder panicked, or [garbage_collection] hit an unknown leaf.
    Internal panics during an invalidation are not resumed from. *)
Definition resumable (k : pkind) : bool :=
  match k with PkUser | PkGcIndex => true | _ => false end.

(** Unwinding: no builder is being built any more. *)
Definition unwound (s : st) : st := set_stack [] s.

(** Result of one call as seen by the user of [catch_unwind]. *)
Inductive answer := Returned (r : out) | Panicked (k : pkind).

(** Runs from a state [s0]: sequences of API calls, each allowed by [P] in the
    state in which it is made, with the answers (newest first).  A run goes on
    after a returned call and after a caught panic. *)
Inductive runs (P : st → op → Prop) (s0 : st) : list (op * answer) → st → Prop :=
| runs_nil : runs P s0 [] s0
| runs_done l s n x r s' :
    runs P s0 l s → P s x → step n x s = Done r s' → runs P s0 ((x, Returned r) :: l) s'
| runs_panic l s n x k s' :
    runs P s0 l s → P s x → step n x s = Panic k s' → resumable k = true →
    runs P s0 ((x, Panicked k) :: l) (unwound s').

Definition any_op (s : st) (x : op) : Prop := True.

(** States reachable from a new cache, with the operations allowed by [P], or
    with all operations. *)
Definition reach_by (P : st → op → Prop) (s : st) : Prop := ∃ l, runs P init_st l s.
Definition reachable (s : st) : Prop := reach_by any_op s.

(** Executable histories, for examples. *)
Fixpoint run (fuel : nat) (l : list op) (s : st) : option (list answer * st) :=
  match l with
  | [] => Some ([], s)
  | x :: l' =>
    match step fuel x s with
    | Done r s' => match run fuel l' s' with Some (rs, s'') => Some (Returned r :: rs, s'') | None => None end
    | Panic k s' =>
      if resumable k then
        match run fuel l' (unwound s') with Some (rs, s'') => Some (Panicked k :: rs, s'') | None => None end
      else None
    | _ => None
    end
  end.

End System.
