(** Running builders: [RawCache::build], the getters and the [Resolver]
    (src/cache/internal.rs:426-595, src/cache.rs:854-1003). *)
From Verif Require Export Cache.

Section Build.
Context (E : env).

(** What [RawCache::build] returns: [Result<&mut ArtCan, B::Err>]. *)
Inductive bres := BOk (a : art) | BErr (e : val).

(** [ArtCan: Clone] is needed to hand out bins ([get], [resolve]); boxed
    artifacts have no such bins (src/canning.rs:489-541). *)
Definition how_legal (h : how) : bool :=
  match e_kind E, h with Boxed, HBin => false | _, _ => true end.

(** Dereferencing a promise: builder definition and id of a live builder. *)
Definition promise (o : obj) (s : st) : option (bdef * addr) :=
  if bool_decide (o ∈ alive s) then objs s !! o else None.

(** [RawCache::get], [get_ref], [get_cloned] (internal.rs:502-595), given
    [build].  The second [lookup_ref] of [get_ref] sees the same cache as the
    first, so one lookup is modelled. *)
Definition get_with (bld : obj → st → outcome bres) (h : how) (o : obj) (s : st) : outcome rval :=
  match promise o s with
  | None => Illegal
  | Some (d, a) =>
    if how_legal h then
      match lookup_art (e_dbg E) (ch s) a (bd_aty d) with
      | LPanic k => Panic k s
      | LSome b => Done (conv h b) s
      | LNone =>
        match bld o s with
        | Done (BOk e) s' =>
          if (ar_ty e =? bd_aty d)%N then Done (conv h (ar_bin e)) s' else Panic PkDowncast s'
        | Done (BErr e) s' => Done (RvErr e) s'
        | Panic k s' => Panic k s'
        | NoFuel => NoFuel
        | Illegal => Illegal
        end
      end
    else Illegal
  end.

(** Allocating a builder, [Blueprint::new] (src/blueprint.rs:143-147): the
    allocator gives an address that is not in use by a live builder and not
    pinned by a weak reference in the cache. *)
Definition alloc (d : bdef) (s : st) : option (obj * st) :=
  let a := e_ask E (tick s) in
  let used := bool_decide (set_Exists (λ o, option_map snd (objs s !! o) = Some a) (alive s))
              || is_known (ch s) a in
  if used then None
  else
    let o := nobj s in
    Some (o, St (ch s) (<[o := (d, a)]> (objs s)) ({[o]} ∪ alive s) (N.succ o)
                (nbin s) (S (tick s)) (stack s) (reent s) (trace s)).

(** Dropping the last strong reference of a builder.  A builder that is being
    built is borrowed and cannot be dropped. *)
Definition drop_obj (o : obj) (s : st) : option st :=
  if bool_decide (o ∈ alive s) && negb (bool_decide (o ∈ stack s))
  then Some (set_alive (alive s ∖ {[o]}) s) else None.

(** [Resolver::resolve*] = track, then get (src/cache.rs:870-987); [ua] is the
    id in [Resolver::user]. *)
Definition resolve_with (bld : obj → st → outcome bres) (u : obj) (ua : addr) (h : how) (w : obj) (s : st)
    : outcome rval :=
  match promise w s with
  | None => Illegal
  | Some (_, wa) =>
    match track_dependency (e_dbg E) ua wa w (ch s) with
    | CPanic k c => Panic k (set_ch c s)
    | CFuel => NoFuel
    | COk c =>
      match get_with bld h w (log (EResolve u w) (set_ch c s)) with
      | Done r s' => Done r (log (EGot u w r) s')
      | x => x
      end
    end
  end.

(** Running the [build] of builder [u] (id [ua], dynamic state type [t]). *)
Fixpoint exec (bld : obj → st → outcome bres) (u : obj) (ua : addr) (t : ty) (p : prog) (s : st)
    {struct p} : outcome result :=
  match p with
  | PRet r => Done r s
  | PPanic => Panic PkUser s
  | PResolve h w k =>
    match resolve_with bld u ua h w s with
    | Done r s' => exec bld u ua t (k r) s'
    | Panic k s' => Panic k s'
    | NoFuel => NoFuel
    | Illegal => Illegal
    end
  | PState k =>
    match my_state (e_dbg E) ua t (ch s) with
    | inl pk => Panic pk s
    | inr v => exec bld u ua t (k v) s
    end
  | PSetState v p =>
    match my_state (e_dbg E) ua t (ch s) with
    | inl pk => Panic pk s
    | inr _ => exec bld u ua t p (set_ch (set_dyn_states <[ua := Dst t v]> (ch s)) s)
    end
  | PAsk k => exec bld u ua t (k (e_ask E (tick s))) (tock s)
  | PNewBin v k => exec bld u ua t (k (Bin (nbin s) v)) (set_nbin (N.succ (nbin s)) s)
  | PNew d k =>
    match alloc d s with
    | None => Illegal
    | Some (o, s') => exec bld u ua t (k o) s'
    end
  | PDrop w p =>
    match drop_obj w s with
    | None => Illegal
    | Some s' => exec bld u ua t p s'
    end
  end.

(** [RawCache::build] (internal.rs:426-497) of builder [o]; the doctor's
    [build] event (internal.rs:475) is [EBuilt].  The fuel bounds the nesting
    depth of builds. *)
Fixpoint build (fuel : nat) (o : obj) (s : st) {struct fuel} : outcome bres :=
  match fuel with
  | O => NoFuel
  | S fuel' =>
    match promise o s with
    | None => Illegal
    | Some (BDef aty sty init body, a) =>
      if e_dbg E && contains_artifact (ch s) a then Panic PkDebug s
      else
        let c1 := make_known a o (ch s) in
        match ensure_dyn_state a o sty init c1 with
        | (c2, inl k) => Panic k (set_ch c2 s)
        | (c2, inr _) =>
          let s1 := set_reent (reent s || bool_decide (o ∈ stack s)) (set_stack (o :: stack s) (set_ch c2 s)) in
          match exec (build fuel') o a sty body (log (ECall o) s1) with
          | Done (Ok b) s2 =>
            let c3 := set_artifacts <[a := Art aty b]> (ch s2) in
            let s3 := set_stack (stack s) (log (EBuilt o b) (set_ch c3 s2)) in
            match artifacts c3 !! a with
            | Some e => Done (BOk e) s3
            | None => Panic PkUnwrap s3
            end
          | Done (Err e) s2 => Done (BErr e) (set_stack (stack s) (log (EFailed o e) s2))
          | Panic k s2 => Panic k s2
          | NoFuel => NoFuel
          | Illegal => Illegal
          end
        end
    end
  end.

(** [RawCache::get] etc. with the real [build]. *)
Definition get (fuel : nat) : how → obj → st → outcome rval := get_with (build fuel).

End Build.
