(** User code that panics in the middle of a call: [Drop] of artifacts and of
    dynamic states (src/cache/internal.rs).

    [HashMap::remove] takes the entry out and then drops it, so the panic comes
    after the removal.  [da a] says whether dropping the artifact stored under
    [a] panics, [dd a] the same for the dynamic state.  Everything else is as in
    Cache.v and System.v; where nothing panics, it is the same (C43_model). *)
From Verif Require Export System.

Section Interrupt.
Context (da dd : addr → bool).

(** [self.artifacts.remove(&bid)] panics. *)
Definition art_bomb (c : cache) (a : addr) : bool := contains_artifact c a && da a.
(** [self.dyn_states.remove(&bid)] panics. *)
Definition dyn_bomb (c : cache) (a : addr) : bool := bool_decide (is_Some (dyn_states c !! a)) && dd a.

(** [invalidate_by_id] (internal.rs:789-845): the drop is at the end of the loop
    body (841). *)
Fixpoint inv_loop_i (fuel : nat) (dbg : bool) (pr : nat → N → N) (i : nat)
    (processed : gset addr) (pending : list addr) (c : cache) {struct fuel} : cres :=
  match pending with
  | [] => COk c
  | bid :: rest =>
    match fuel with
    | O => CFuel
    | S fuel' =>
      let processed := {[bid]} ∪ processed in
      let pending :=
        match dependents c !! bid with
        | Some set => rev (iter_order (pr (2 * i)) set) ++ rest
        | None => rest
        end in
      let c1 := set_dependents (delete bid) c in
      let deps := match dependencies c1 !! bid with
                  | Some set => iter_order (pr (2 * i + 1)) set
                  | None => []
                  end in
      let c2 := set_dependencies (delete bid) c1 in
      match inv_deps dbg processed bid deps c2 with
      | COk c3 =>
        let c4 := set_leafs ({[bid]} ∪.) c3 in
        let c5 := set_artifacts (delete bid) c4 in
        if art_bomb c4 bid then CPanic PkUser c5
        else inv_loop_i fuel' dbg pr (S i) processed pending c5
      | r => r
      end
    end
  end.
Definition invalidate_by_id_i (dbg : bool) (pr : nat → N → N) (a : addr) (c : cache) : cres :=
  inv_loop_i (S (edge_count c)) dbg pr 0 {[a]} [a] c.

(** [invalidate_dependents] (internal.rs:850-859). *)
Fixpoint inv_each_i (dbg : bool) (pr : nat → nat → N → N) (i : nat) (l : list addr) (c : cache) : cres :=
  match l with
  | [] => COk c
  | dep :: l' =>
    match invalidate_by_id_i dbg (pr i) dep c with
    | COk c' => inv_each_i dbg pr (S i) l' c'
    | r => r
    end
  end.
Definition invalidate_dependents_i (dbg : bool) (pr : nat → nat → N → N) (a : addr) (c : cache) : cres :=
  let r :=
    match dependents c !! a with
    | Some set => inv_each_i dbg pr 1 (iter_order (pr 0 0) set) (set_dependents (delete a) c)
    | None => COk c
    end in
  match r with
  | COk c' => COk (set_leafs ({[a]} ∪.) c')
  | r => r
  end.

(** [lookup_mut] (internal.rs:367-399). *)
Definition lookup_mut_i (dbg : bool) (pr : nat → nat → N → N) (a : addr) (t : ty) (c : cache) : cres * lres :=
  match invalidate_dependents_i dbg pr a c with
  | COk c' =>
    if dbg && (contains_artifact c' a && negb (is_known c' a)) then (COk c', LPanic PkDebug)
    else
      match artifacts c' !! a with
      | None => (COk c', LNone)
      | Some e => if (ar_ty e =? t)%N then (COk c', LSome (ar_bin e)) else (COk c', LPanic PkDowncast)
      end
  | r => (r, LNone)
  end.

(** [purge] (internal.rs:733-757): the weak reference is removed first (746),
    then the artifact (749), then the dynamic state (750). *)
Definition purge_i (dbg : bool) (pr : nat → N → N) (a : addr) (c : cache) : cres :=
  let c1 := set_known (delete a) c in
  let c2 := set_artifacts (delete a) c1 in
  if art_bomb c1 a then CPanic PkUser c2
  else
    let c3 := set_dyn_states (delete a) c2 in
    if dyn_bomb c2 a then CPanic PkUser c3
    else invalidate_by_id_i dbg pr a c3.

(** [garbage_collection] (internal.rs:884-911). *)
Fixpoint gc_loop_i (dbg : bool) (pr : nat → nat → N → N) (i : nat) (l : list addr) (c : cache) : cres :=
  match l with
  | [] => COk c
  | bid :: l' =>
    match invalidate_by_id_i dbg (pr i) bid c with
    | COk c1 =>
      let c2 := set_dyn_states (delete bid) c1 in
      if dyn_bomb c1 bid then CPanic PkUser c2
      else
        let c3 := set_known (delete bid) c2 in
        let c4 := set_leafs (.∖ {[bid]}) c3 in
        gc_loop_i dbg pr (S i) l' c4
    | r => r
    end
  end.
Definition garbage_collection_i (dbg : bool) (pr : nat → nat → N → N) (alive : gset obj) (c : cache) : cres :=
  if dbg && negb (gc_check c) then CPanic PkDebug c
  else
    let ls := iter_order (pr 0 0) (leafs c) in
    if forallb (is_known c) ls then
      gc_loop_i dbg pr 1 (filter (λ a, unreachable alive c a = true) ls) c
    else CPanic PkGcIndex c.

Context (E : env).

(** The calls of System.v in which a value of the cache may be dropped.  The
    second [lookup_mut] of [get_mut] finds no dependents and drops nothing, so
    it is the one of Cache.v.  Simplification: the artifact that a builder which
    was built twice (re-entrantly) replaces (internal.rs:486-490) is dropped
    silently; [clear_artifacts] and [clear_all] are below. *)
Definition op_lookup_mut_i (o : obj) (f : val → val) (s : st) : outcome out :=
  match e_kind E, promise o s with
  | Boxed, Some (d, a) =>
    match lookup_mut_i (e_dbg E) (prio E s) a (bd_aty d) (ch s) with
    | (COk c, LSome b) => Done (OutOpt (Some (RvVal (bin_val b)))) (tock (set_ch (write_art a f c) s))
    | (COk c, LNone) => Done (OutOpt None) (tock (set_ch c s))
    | (COk c, LPanic k) => Panic k (tock (set_ch c s))
    | (CPanic k c, _) => Panic k (tock (set_ch c s))
    | (CFuel, _) => NoFuel
    end
  | _, _ => Illegal
  end.
Definition op_get_mut_i (fuel : nat) (o : obj) (f : val → val) (s : st) : outcome out :=
  match e_kind E, promise o s with
  | Boxed, Some (d, a) =>
    match lookup_mut_i (e_dbg E) (prio E s) a (bd_aty d) (ch s) with
    | (COk c, LSome _) =>
      let s1 := tock (set_ch c s) in
      match lookup_mut (e_dbg E) (prio E s1) a (bd_aty d) (ch s1) with
      | (COk c, LSome b) => Done (OutRes (RvVal (bin_val b))) (tock (set_ch (write_art a f c) s1))
      | (COk c, LNone) => Panic PkUnwrap (tock (set_ch c s1))
      | (COk c, LPanic k) => Panic k (tock (set_ch c s1))
      | (CPanic k c, _) => Panic k (tock (set_ch c s1))
      | (CFuel, _) => NoFuel
      end
    | (COk c, LNone) =>
      match build E fuel o (tock (set_ch c s)) with
      | Done (BOk e) s' =>
        if (ar_ty e =? bd_aty d)%N
        then Done (OutRes (RvVal (bin_val (ar_bin e)))) (set_ch (write_art a f (ch s')) s')
        else Panic PkDowncast s'
      | Done (BErr e) s' => Done (OutRes (RvErr e)) s'
      | Panic k s' => Panic k s'
      | NoFuel => NoFuel
      | Illegal => Illegal
      end
    | (COk c, LPanic k) => Panic k (tock (set_ch c s))
    | (CPanic k c, _) => Panic k (tock (set_ch c s))
    | (CFuel, _) => NoFuel
    end
  | _, _ => Illegal
  end.
Definition step_i (fuel : nat) (x : op) (s : st) : outcome out :=
  match x with
  | OGetMut o f => op_get_mut_i fuel o f s
  | OLookupMut o f => op_lookup_mut_i o f s
  | ODynStateMut o f =>                 (* internal.rs:683-699 *)
    match promise o s with
    | None => Illegal
    | Some (d, a) =>
      match invalidate_by_id_i (e_dbg E) (prio E s 0) a (ch s) with
      | COk c =>
        let s1 := log (EInvalidate o) (tock (set_ch c s)) in
        match ensure_dyn_state a o (bd_sty d) (bd_init d) (ch s1) with
        | (c, inr v) => Done (OutVal v) (set_ch (set_dyn_states <[a := Dst (bd_sty d) (f v)]> c) s1)
        | (c, inl k) => Panic k (set_ch c s1)
        end
      | CPanic k c => Panic k (tock (set_ch c s))
      | CFuel => NoFuel
      end
    end
  | OInvalidate o =>
    match promise o s with
    | None => Illegal
    | Some (_, a) =>
      match lift (invalidate_by_id_i (e_dbg E) (prio E s 0) a (ch s)) s with
      | Done r s' => Done r (log (EInvalidate o) s')
      | x => x
      end
    end
  | OPurge o =>
    match promise o s with
    | None => Illegal
    | Some (_, a) =>
      match lift (purge_i (e_dbg E) (prio E s 0) a (ch s)) s with
      | Done r s' => Done r (log (EInvalidate o) s')
      | x => x
      end
    end
  | OGc => lift (garbage_collection_i (e_dbg E) (prio E s) (alive s) (ch s)) s
  | x => step E fuel x s
  end.
End Interrupt.

(** [HashMap::clear] when a [Drop] panics: some of the entries are left (the
    standard library does not say which). *)
Inductive clear_cut : op → cache → cache → Prop :=
| cc_artifacts x m c : (x = OClearArtifacts ∨ x = OClearAll) → m ⊆ artifacts c →
    clear_cut x c (set_artifacts (λ _, m) c)              (* internal.rs:762, 775 *)
| cc_states m c : m ⊆ dyn_states c →
    clear_cut OClearAll c (set_dyn_states (λ _, m) (set_artifacts (λ _, ∅) c)).  (* 776 *)
