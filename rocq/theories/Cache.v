(** Model of [RawCache] (src/cache/internal.rs), the part that does not run
    builders.  Functions work on the [cache] record and take ids, type tags and
    iteration orders explicitly. *)
From Verif Require Export Types.

(** Result of a cache-level function: the new cache, or a panic with the cache
    at that point; [CFuel] if the loop fuel runs out (proved impossible). *)
Inductive cres := COk (c : cache) | CPanic (k : pkind) (c : cache) | CFuel.

(** Iterating a hash set: its elements in an order given by priorities.  Every
    permutation is the order for some priorities; no order is assumed. *)
Definition prio_le (pr : N → N) (x y : N) : Prop := (pr x ≤ pr y)%N.
Global Instance prio_le_dec pr : RelDecision (prio_le pr).
Proof. intros x y. unfold prio_le. apply _. Defined.
Definition iter_order (pr : N → N) (X : gset N) : list N :=
  merge_sort (prio_le pr) (elements X).

(** [is_builder_known_by_id] (internal.rs:300-306). *)
Definition is_known (c : cache) (a : addr) : bool := bool_decide (is_Some (known c !! a)).

(** [contains_artifact] (internal.rs:272-281). *)
Definition contains_artifact (c : cache) (a : addr) : bool := bool_decide (is_Some (artifacts c !! a)).

(** [make_builder_known] (internal.rs:915-937). *)
Definition make_known (a : addr) (o : obj) (c : cache) : cache :=
  match known c !! a with
  | Some _ => c
  | None => set_known <[a := o]> (set_leafs ({[a]} ∪.) c)
  end.

(** Adding an element to a set in a map: [entry(k).or_insert_with(HashSet::new).insert(x)]. *)
Definition insert_in (k x : addr) (m : gmap addr (gset addr)) : gmap addr (gset addr) :=
  <[k := {[x]} ∪ default ∅ (m !! k)]> m.

(** [track_dependency] (internal.rs:228-262), without the doctor call, which is
    in [Build.v].  [ua] is the user's id, [wa]/[w] id and object of the promise. *)
Definition track_dependency (dbg : bool) (ua wa : addr) (w : obj) (c : cache) : cres :=
  let c1 := make_known wa w c in
  if dbg && negb (is_known c1 ua) then CPanic PkDebug c1
  else
    let c2 := set_dependents (insert_in wa ua) c1 in
    let c3 := set_leafs (.∖ {[wa]}) c2 in
    let c4 := set_dependencies (insert_in ua wa) c3 in
    COk c4.

(** Result of the lookups. *)
Inductive lres := LPanic (k : pkind) | LNone | LSome (b : bin).

(** [lookup] / [lookup_ref] / [lookup_cloned] (internal.rs:310-334, 338-361,
    403-417); they differ only in how the artifact is handed out ([conv]). *)
Definition lookup_art (dbg : bool) (c : cache) (a : addr) (t : ty) : lres :=
  match artifacts c !! a with
  | None => LNone
  | Some e =>
    if dbg && negb (is_known c a) then LPanic PkDebug
    else if (ar_ty e =? t)%N then LSome (ar_bin e) else LPanic PkDowncast
  end.

(** The inner loop of [invalidate_by_id] over the dependencies of [bid]
    (internal.rs:813-835). *)
Fixpoint inv_deps (dbg : bool) (processed : gset addr) (bid : addr) (l : list addr) (c : cache) : cres :=
  match l with
  | [] => COk c
  | dep :: l' =>
    if bool_decide (dep ∈ processed) then inv_deps dbg processed bid l' c
    else
      match dependents c !! dep with
      | None => CPanic PkCounterpart c
      | Some set =>
        let set' := set ∖ {[bid]} in
        let c1 := set_dependents <[dep := set']> c in
        if dbg && negb (bool_decide (bid ∈ set)) then CPanic PkDebug c1
        else
          let c2 := if bool_decide (set' = ∅) then set_leafs ({[dep]} ∪.) c1 else c1 in
          inv_deps dbg processed bid l' c2
      end
  end.

(** The work list loop of [invalidate_by_id] (internal.rs:797-843).  [pending]
    has the top of the Rust stack first.  [pr] gives the iteration orders, two
    per iteration.  *)
Fixpoint inv_loop (fuel : nat) (dbg : bool) (pr : nat → N → N) (i : nat)
    (processed : gset addr) (pending : list addr) (c : cache) {struct fuel} : cres :=
  match pending with
  | [] => COk c
  | bid :: rest =>
    match fuel with
    | O => CFuel
    | S fuel' =>
      let processed := {[bid]} ∪ processed in
      (* dependents.remove(&bid) and push each; the last pushed is popped first *)
      let pending :=
        match dependents c !! bid with
        | Some set => rev (iter_order (pr (2 * i)) set) ++ rest
        | None => rest
        end in
      let c1 := set_dependents (delete bid) c in
      (* dependencies.remove(&bid) *)
      let deps := match dependencies c1 !! bid with
                  | Some set => iter_order (pr (2 * i + 1)) set
                  | None => []
                  end in
      let c2 := set_dependencies (delete bid) c1 in
      match inv_deps dbg processed bid deps c2 with
      | COk c3 =>
        let c4 := set_leafs ({[bid]} ∪.) c3 in
        let c5 := set_artifacts (delete bid) c4 in
        inv_loop fuel' dbg pr (S i) processed pending c5
      | r => r
      end
    end
  end.

(** Number of recorded dependency edges. *)
Definition edge_count (c : cache) : nat := map_fold (λ _ (X : gset addr) n, size X + n) 0 (dependents c).

(** [invalidate_by_id] (internal.rs:789-845).  The fuel is proved sufficient. *)
Definition invalidate_by_id (dbg : bool) (pr : nat → N → N) (a : addr) (c : cache) : cres :=
  inv_loop (S (edge_count c)) dbg pr 0 {[a]} [a] c.

(** The [for dep in set] loop of [invalidate_dependents] (internal.rs:851-855). *)
Fixpoint inv_each (dbg : bool) (pr : nat → nat → N → N) (i : nat) (l : list addr) (c : cache) : cres :=
  match l with
  | [] => COk c
  | dep :: l' =>
    match invalidate_by_id dbg (pr i) dep c with
    | COk c' => inv_each dbg pr (S i) l' c'
    | r => r
    end
  end.

(** [invalidate_dependents] (internal.rs:850-859). *)
Definition invalidate_dependents (dbg : bool) (pr : nat → nat → N → N) (a : addr) (c : cache) : cres :=
  let r :=
    match dependents c !! a with
    | Some set => inv_each dbg pr 1 (iter_order (pr 0 0) set) (set_dependents (delete a) c)
    | None => COk c
    end in
  match r with
  | COk c' => COk (set_leafs ({[a]} ∪.) c')
  | r => r
  end.

(** [lookup_mut] (internal.rs:367-399): first invalidates the dependents.
    Returns the cache and the artifact found. *)
Definition lookup_mut (dbg : bool) (pr : nat → nat → N → N) (a : addr) (t : ty) (c : cache) : cres * lres :=
  match invalidate_dependents dbg pr a c with
  | COk c' =>
    if dbg && (contains_artifact c' a && negb (is_known c' a)) then (COk c', LPanic PkDebug)
    else
      match artifacts c' !! a with
      | None => (COk c', LNone)
      | Some e => if (ar_ty e =? t)%N then (COk c', LSome (ar_bin e)) else (COk c', LPanic PkDowncast)
      end
  | r => (r, LNone)
  end.

(** [ensure_dyn_state] (internal.rs:600-619).  [init = None]: [init_dyn_state]
    panics, after the builder has been made known.  Returns the state. *)
Definition ensure_dyn_state (a : addr) (o : obj) (t : ty) (init : option val) (c : cache)
    : cache * (pkind + val) :=
  let c1 := make_known a o c in
  match dyn_states c1 !! a with
  | Some d => if (ds_ty d =? t)%N then (c1, inr (ds_val d)) else (c1, inl PkDowncast)
  | None =>
    match init with
    | None => (c1, inl PkUser)
    | Some v => (set_dyn_states <[a := Dst t v]> c1, inr v)
    end
  end.

(** [dyn_state_cast_mut] followed by [unwrap], as [my_state] does
    (internal.rs:631-652, cache.rs:998-1002). *)
Definition my_state (dbg : bool) (a : addr) (t : ty) (c : cache) : pkind + val :=
  if dbg && (bool_decide (is_Some (dyn_states c !! a)) && negb (is_known c a)) then inl PkDebug
  else
    match dyn_states c !! a with
    | None => inl PkUnwrap
    | Some d => if (ds_ty d =? t)%N then inr (ds_val d) else inl PkDowncast
    end.

(** [get_dyn_state] = [dyn_state_cast_ref] (internal.rs:663-679, 720-729). *)
Definition get_dyn_state (dbg : bool) (a : addr) (t : ty) (c : cache) : pkind + option val :=
  match dyn_states c !! a with
  | None => inr None
  | Some d =>
    if dbg && negb (is_known c a) then inl PkDebug
    else if (ds_ty d =? t)%N then inr (Some (ds_val d)) else inl PkDowncast
  end.

(** [purge] (internal.rs:733-757), without the doctor call. *)
Definition purge (dbg : bool) (pr : nat → N → N) (a : addr) (c : cache) : cres :=
  let c1 := set_known (delete a) c in
  let c2 := set_artifacts (delete a) c1 in
  let c3 := set_dyn_states (delete a) c2 in
  invalidate_by_id dbg pr a c3.

(** [clear_artifacts] (internal.rs:761-769). *)
Definition clear_artifacts (c : cache) : cache :=
  let c1 := set_artifacts (λ _, ∅) c in
  let c2 := set_dependents (λ _, ∅) c1 in
  let c3 := set_dependencies (λ _, ∅) c2 in
  set_leafs (.∪ dom (known c3)) c3.

(** [clear_all] (internal.rs:774-784), without the doctor call. *)
Definition clear_all (c : cache) : cache :=
  let c := set_artifacts (λ _, ∅) c in
  let c := set_dyn_states (λ _, ∅) c in
  let c := set_dependents (λ _, ∅) c in
  let c := set_dependencies (λ _, ∅) c in
  let c := set_known (λ _, ∅) c in
  set_leafs (λ _, ∅) c.

(** The loop at the end of [garbage_collection] (internal.rs:905-910). *)
Fixpoint gc_loop (dbg : bool) (pr : nat → nat → N → N) (i : nat) (l : list addr) (c : cache) : cres :=
  match l with
  | [] => COk c
  | bid :: l' =>
    match invalidate_by_id dbg (pr i) bid c with
    | COk c1 =>
      let c2 := set_dyn_states (delete bid) c1 in
      let c3 := set_known (delete bid) c2 in
      let c4 := set_leafs (.∖ {[bid]}) c3 in
      gc_loop dbg pr (S i) l' c4
    | r => r
    end
  end.

(** The invariant checked in debug builds at the start of
    [garbage_collection] (internal.rs:886-896): each known builder is a leaf or
    has a non-empty set of dependents (a missing set panics as well). *)
Definition gc_check (c : cache) : bool :=
  forallb (λ a, bool_decide (a ∈ leafs c) ||
                match dependents c !! a with
                | Some X => negb (bool_decide (X = ∅))
                | None => false
                end)
          (elements (dom (known c))).

(** [upgrade_from_weak(..).is_none()] (src/canning.rs:407-409, 565-567). *)
Definition dead (alive : gset obj) (o : obj) : bool := negb (bool_decide (o ∈ alive)).

(** The closure [|bid| upgrade_from_weak(&known_builders[bid]).is_none()]
    (internal.rs:898-903) on a known id. *)
Definition unreachable (alive : gset obj) (c : cache) (a : addr) : bool :=
  match known c !! a with Some o => dead alive o | None => false end.

(** [garbage_collection] (internal.rs:884-911).  [known_builders[bid]] panics
    if a leaf is not known. *)
Definition garbage_collection (dbg : bool) (pr : nat → nat → N → N) (alive : gset obj) (c : cache) : cres :=
  if dbg && negb (gc_check c) then CPanic PkDebug c
  else
    let ls := iter_order (pr 0 0) (leafs c) in
    if forallb (is_known c) ls then
      gc_loop dbg pr 1 (filter (λ a, unreachable alive c a = true) ls) c
    else CPanic PkGcIndex c.

(** [number_of_known_builders] (internal.rs:941-943). *)
Definition number_of_known (c : cache) : nat := size (known c).
