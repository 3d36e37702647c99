(** Histories in which everyone uses only builders of which they hold a blueprint, and
    builders are dropped exactly when nobody holds one of theirs any more.

    In the other files [ODrop] and [PDrop] drop a builder at the whim of the program,
    and using a builder that is dropped is [Illegal], as Rust excludes it.  Here it is
    not excluded: what holds blueprints is kept track of, a builder is dropped when
    its count comes to zero ([Rc]/[Arc], src/canning.rs:394-541; [Blueprint],
    [BlueprintUnsized] and [BlueprintDyn] hold a count each, src/blueprint.rs:136, 304,
    582), and
    that nothing dropped is used is a theorem (C58).

    A count only says whether someone holds a blueprint, so the model has the set of
    those that do: the user, the builders (in their fields), the running code (in its
    local variables), and the artifacts and dynamic states in the cache.

    Simplification: builders no longer held are dropped before the next thing
    somebody does, not in the middle of a removal; in between nothing looks at which
    builders are alive. *)
From Verif Require Export Owner Threads.

Definition mentions_res (r : result) : gset obj := match r with Ok b => mentions (bin_val b) | Err e => mentions e end.
Definition mentions_rv (r : rval) : gset obj :=
  match r with RvBin b => mentions (bin_val b) | RvVal v | RvErr v => mentions v end.
Definition mentions_opt (v : option val) : gset obj := match v with Some v => mentions v | None => ∅ end.
Definition mentions_out (r : out) : gset obj :=
  match r with
  | OutUnit | OutBool _ | OutNum _ | OutOpt None => ∅
  | OutObj o => {[o]}
  | OutRes r | OutOpt (Some r) => mentions_rv r
  | OutVal v => mentions v
  | OutOptVal v => mentions_opt v
  end.

Section Owned.
(** [fields d]: the builders of which a builder [d] holds blueprints in its fields.
    [keep p L]: which of the blueprints [L] in local variables the code still has
    when [p] is left to be done; the others it has dropped. *)
Context (E : env) (fields : bdef → gset obj) (keep : prog → gset obj → gset obj).

Definition locals (p : prog) (L : gset obj) : gset obj := keep p L ∩ L.

(** Held by artifacts or dynamic states in the cache (src/cache/internal.rs:97-109). *)
Definition stored (c : cache) : gset obj :=
  ⋃ ((λ x : addr * art, mentions (bin_val (ar_bin x.2))) <$> map_to_list (artifacts c))
  ∪ ⋃ ((λ x : addr * dst, mentions (ds_val x.2)) <$> map_to_list (dyn_states c)).
(** What is in the fields of the builder [u]. *)
Definition made (s : st) (u : obj) : gset obj := match objs s !! u with Some (d, _) => fields d | None => ∅ end.
(** Held by builders that are alive. *)
Definition parts (s : st) : gset obj := ⋃ (made s <$> elements (alive s)).

(** Alive, but held by nobody; [W]: what user and running code hold. *)
Definition unheld (W : gset obj) (s : st) : list obj :=
  filter (λ w, w ∉ W ∧ w ∉ stored (ch s) ∧ w ∉ parts s) (elements (alive s)).
(** Dropping builders until none is unheld; the fields of a dropped builder go with
    it.  [None]: a builder would be dropped that is being built. *)
Fixpoint settle (n : nat) (W : gset obj) (s : st) : option st :=
  match n, unheld W s with
  | S n, w :: _ => match drop_obj w s with Some s' => settle n W (tock s') | None => None end
  | _, _ => Some s
  end.
Definition settled_down (W : gset obj) (s : st) : option st := settle (size (alive s)) W s.

(** [get], [get_ref], [get_cloned] and [resolve*], see Build.v [get_with],
    [resolve_with]. *)
Definition get_o (bld : obj → st → outcome bres) := get_with E bld.
Definition resolve_o (bld : obj → st → outcome bres) := resolve_with E bld.

(** The code of a builder, see Build.v [exec].  [B]: what is held by the user and by
    the code waiting for this one; [L]: by the local variables.  There is no explicit
    dropping, a blueprint is dropped when [keep] says so.  When the allocator does
    not give a free address (it always does), the run is cut short ([NoFuel]). *)
Fixpoint exec_o (bld : gset obj → obj → st → outcome bres) (u : obj) (ua : addr) (t : ty) (B L : gset obj) (p : prog) (s : st)
    {struct p} : outcome result :=
  let L := locals p L in
  match settled_down (B ∪ L) s with
  | None => Illegal
  | Some s =>
    match p with
    | PRet r => Done r s
    | PPanic => Panic PkUser s
    | PResolve h w k =>
      match resolve_o (bld (B ∪ L)) u ua h w s with
      | Done r s' => exec_o bld u ua t B (L ∪ mentions_rv r) (k r) s'
      | Panic k s' => Panic k s'
      | NoFuel => NoFuel
      | Illegal => Illegal
      end
    | PState k =>
      match my_state (e_dbg E) ua t (ch s) with
      | inl pk => Panic pk s
      | inr v => exec_o bld u ua t B (L ∪ mentions v) (k v) s
      end
    | PSetState v p =>
      match my_state (e_dbg E) ua t (ch s) with
      | inl pk => Panic pk s
      | inr _ => exec_o bld u ua t B L p (set_ch (set_dyn_states <[ua := Dst t v]> (ch s)) s)
      end
    | PAsk k => exec_o bld u ua t B L (k (e_ask E (tick s))) (tock s)
    | PNewBin v k => exec_o bld u ua t B L (k (Bin (nbin s) v)) (set_nbin (N.succ (nbin s)) s)
    | PNew d k =>
      match alloc E d s with
      | None => NoFuel
      | Some (o, s') => exec_o bld u ua t B (L ∪ {[o]}) (k o) s'
      end
    | PDrop _ _ => Illegal
    end
  end.

(** [RawCache::build] (internal.rs:426-497), see Build.v [build]. *)
Fixpoint build_o (fuel : nat) (B : gset obj) (o : obj) (s : st) {struct fuel} : outcome bres :=
  match fuel with
  | O => NoFuel
  | S fuel' =>
    match promise o s with
    | None => Illegal
    | Some (BDef aty sty init body, a) =>
      if e_dbg E && contains_artifact (ch s) a then Panic PkDebug s
      else
        let c1 := make_known a o (ch s) in
        match ensure_dyn_state a o sty init c1 with
        | (c2, inl k) => Panic k (set_ch c2 s)
        | (c2, inr _) =>
          let s1 := set_reent (reent s || bool_decide (o ∈ stack s)) (set_stack (o :: stack s) (set_ch c2 s)) in
          match exec_o (build_o fuel') o a sty B ∅ body (log (ECall o) s1) with
          | Done (Ok b) s2 =>
            let c3 := set_artifacts <[a := Art aty b]> (ch s2) in
            let s3 := set_stack (stack s) (log (EBuilt o b) (set_ch c3 s2)) in
            match artifacts c3 !! a with
            | Some e => Done (BOk e) s3
            | None => Panic PkUnwrap s3
            end
          | Done (Err e) s2 => Done (BErr e) (set_stack (stack s) (log (EFailed o e) s2))
          | Panic k s2 => Panic k s2
          | NoFuel => NoFuel
          | Illegal => Illegal
          end
        end
    end
  end.

(** [get_mut] (internal.rs:555-577), see System.v [op_get_mut]. *)
Definition get_mut_o (fuel : nat) (B : gset obj) (o : obj) (f : val → val) (s : st) : outcome out :=
  match e_kind E, promise o s with
  | Boxed, Some (d, a) =>
    match lookup_mut (e_dbg E) (prio E s) a (bd_aty d) (ch s) with
    | (COk c, LNone) =>
      match build_o fuel B o (tock (set_ch c s)) with
      | Done (BOk e) s' =>
        if (ar_ty e =? bd_aty d)%N
        then Done (OutRes (RvVal (bin_val (ar_bin e)))) (set_ch (write_art a f (ch s')) s')
        else Panic PkDowncast s'
      | Done (BErr e) s' => Done (OutRes (RvErr e)) s'
      | Panic k s' => Panic k s'
      | NoFuel => NoFuel
      | Illegal => Illegal
      end
    | _ => op_get_mut E fuel o f s
    end
  | _, _ => Illegal
  end.

(** A call of the user, who holds [U]. *)
Definition step_o (fuel : nat) (U : gset obj) (x : op) (s : st) : outcome out :=
  match x with
  | OAlloc d => match alloc E d s with Some (o, s') => Done (OutObj o) s' | None => NoFuel end
  | OGet h o =>
    match get_o (build_o fuel U) h o s with
    | Done r s' => Done (OutRes r) s'
    | Panic k s' => Panic k s'
    | NoFuel => NoFuel
    | Illegal => Illegal
    end
  | OGetMut o f => get_mut_o fuel U o f s
  | x => step E fuel x s
  end.

(** ** Using only what one holds

    That is what safe Rust allows: code of a builder with fields [F], and local
    variables [L], can resolve, return, store or put into the fields of a new builder
    only blueprints that it has there; and it has no others than those given to it.
    ([how_legal]: boxed caches have no [resolve], only [resolve_ref] and
    [resolve_cloned].) *)
Fixpoint owns (F L : gset obj) (p : prog) : Prop :=
  let M := F ∪ locals p L in
  match p with
  | PRet r => mentions_res r ⊆ M
  | PPanic => True
  | PResolve h w k => w ∈ M ∧ how_legal E h = true ∧ ∀ r, owns F (locals p L ∪ mentions_rv r) (k r)
  | PState k => ∀ v, owns F (locals p L ∪ mentions v) (k v)
  | PSetState v q => mentions v ⊆ M ∧ owns F (locals p L) q
  | PAsk k => ∀ n, owns F (locals p L) (k n)
  | PNewBin v k => ∀ n, owns F (locals p L) (k (Bin n v))
  | PNew (BDef aty sty init body as d) k =>
      (fields d ⊆ M ∧ mentions_opt init ⊆ fields d ∧ owns (fields d) ∅ body) ∧
      ∀ o, owns F (locals p L ∪ {[o]}) (k o)
  | PDrop _ _ => False
  end.
(** A builder whose code does so; its initial state is made from its fields. *)
Definition fair (d : bdef) : Prop := mentions_opt (bd_init d) ⊆ fields d ∧ owns (fields d) ∅ (bd_body d).

(** The same for the user, holding [U]; what the user writes is made of what is held
    and what was there. *)
Definition may (U : gset obj) (x : op) : Prop :=
  match x with
  | OAlloc d => fields d ⊆ U ∧ fair d
  | ODrop _ => False
  | OGet h o | OLookup h o => o ∈ U ∧ how_legal E h = true
  | OGetMut o f | OLookupMut o f => o ∈ U ∧ e_kind E = Boxed ∧ ∀ v, mentions (f v) ⊆ U ∪ mentions v
  | ODynStateMut o f => o ∈ U ∧ ∀ v, mentions (f v) ⊆ U ∪ mentions v
  | ODynState o | OGetDynState o | OInvalidate o | OPurge o | OIsKnown o => o ∈ U
  | OClearArtifacts | OClearAll | OGc | ONumKnown => True
  end.

(** ** Histories

    [U]: the builders of which the user holds blueprints.  The user can drop
    blueprints at any time, and is given those returned, or in values returned. *)
Inductive oruns : gset obj → list (op * answer) → st → Prop :=
| oruns_nil : oruns ∅ [] init_st
| oruns_release U U' l s s' :
    oruns U l s → U' ⊆ U → settled_down U' s = Some s' → oruns U' l s'
| oruns_done U l s n x r s1 s' :
    oruns U l s → may U x → step_o n U x s = Done r s1 → settled_down (U ∪ mentions_out r) s1 = Some s' →
    oruns (U ∪ mentions_out r) ((x, Returned r) :: l) s'
| oruns_panic U l s n x k s1 s' :
    oruns U l s → may U x → step_o n U x s = Panic k s1 → resumable k = true → settled_down U (unwound s1) = Some s' →
    oruns U ((x, Panicked k) :: l) s'.

(** Calling [garbage_collection] [n] times, meanwhile holding [U]. *)
Inductive collections (U : gset obj) : nat → st → st → Prop :=
| collections_O s : collections U 0 s s
| collections_S n m s s1 s2 s3 :
    step_o m U OGc s = Done OutUnit s1 → settled_down U s1 = Some s2 → collections U n s2 s3 → collections U (S n) s s3.

(** ** Who keeps whom alive *)


(** [w] is held by the user, or by something in the cache, directly or through the
    fields of builders. *)
Definition kept (U : gset obj) (s : st) (w : obj) : Prop :=
  ∃ x, (x ∈ U ∨ ∃ v, holds s v x) ∧ rtc (λ x y, y ∈ made s x) x w.
End Owned.
