(** How much work the calls are.

    The functions of Cache.v, Build.v and System.v again, counting their work: every
    access to a table or to a set in it, every element pushed, popped or handed out by
    an iterator counts one (src/cache/internal.rs; hash tables are taken to take
    constant time).  Accesses only made in debug builds, or only when something was
    not there, are counted in any case.  [clear] counts the entries it drops.  Not
    counted is the code of builders, among it what they do with their state (three
    accesses each time, internal.rs:631-652), and of doctors.

    That these functions do what those of System.v do is [step_w_step] in WorkFacts.v. *)
From Verif Require Export FootSpec System.


Definition w_known : nat := 2.   (* known.entry, leafs.insert: internal.rs:926-935 *)
Definition w_track : nat := w_known + 6.  (* is_known; dependents.entry, insert; leafs.remove; dependencies.entry, insert: 239-256 *)
Definition w_lookup : nat := 2.  (* artifacts.get, is_known: 322-333 *)
Definition w_ensure : nat := w_known + 1.  (* dyn_states.entry: 606-612 *)
Definition w_build : nat := 1 + w_known + w_ensure + 2.  (* contains_artifact; artifacts.insert, get_mut: 435-496 *)

(** internal.rs:809-833: the element handed out, [processed.contains], [dependents.get_mut],
    [remove], [dependents[..]], [leafs.insert]. *)
Fixpoint inv_deps_w (dbg : bool) (processed : gset addr) (bid : addr) (l : list addr) (c : cache) : cres * nat :=
  match l with
  | [] => (COk c, 0)
  | dep :: l' =>
    if bool_decide (dep ∈ processed) then
      let '(r, k) := inv_deps_w dbg processed bid l' c in (r, 2 + k)
    else
      match dependents c !! dep with
      | None => (CPanic PkCounterpart c, 3)
      | Some set =>
        let set' := set ∖ {[bid]} in
        let c1 := set_dependents <[dep := set']> c in
        if dbg && negb (bool_decide (bid ∈ set)) then (CPanic PkDebug c1, 4)
        else
          let c2 := if bool_decide (set' = ∅) then set_leafs ({[dep]} ∪.) c1 else c1 in
          let '(r, k) := inv_deps_w dbg processed bid l' c2 in (r, 6 + k)
      end
  end.

(** internal.rs:797-843: [pop], [processed.insert], [dependents.remove], each dependent
    handed out and pushed, [dependencies.remove], the inner loop, [leafs.insert],
    [artifacts.remove]. *)
Fixpoint inv_loop_w (fuel : nat) (dbg : bool) (pr : nat → N → N) (i : nat)
    (processed : gset addr) (pending : list addr) (c : cache) {struct fuel} : cres * nat :=
  match pending with
  | [] => (COk c, 1)
  | bid :: rest =>
    match fuel with
    | O => (CFuel, 0)
    | S fuel' =>
      let processed := {[bid]} ∪ processed in
      let new := match dependents c !! bid with Some set => rev (iter_order (pr (2 * i)) set) | None => [] end in
      let c1 := set_dependents (delete bid) c in
      let deps := match dependencies c1 !! bid with Some set => iter_order (pr (2 * i + 1)) set | None => [] end in
      let c2 := set_dependencies (delete bid) c1 in
      match inv_deps_w dbg processed bid deps c2 with
      | (COk c3, k1) =>
        let c4 := set_leafs ({[bid]} ∪.) c3 in
        let c5 := set_artifacts (delete bid) c4 in
        let '(r, k) := inv_loop_w fuel' dbg pr (S i) processed (new ++ rest) c5 in
        (r, 6 + 2 * length new + k1 + k)
      | (r, k1) => (r, 6 + 2 * length new + k1)
      end
    end
  end.

(** internal.rs:789-845: the two initial insertions. *)
Definition invalidate_by_id_w (dbg : bool) (pr : nat → N → N) (a : addr) (c : cache) : cres * nat :=
  let '(r, k) := inv_loop_w (S (edge_count c)) dbg pr 0 {[a]} [a] c in (r, 2 + k).

(** internal.rs:850-859. *)
Fixpoint inv_each_w (dbg : bool) (pr : nat → nat → N → N) (i : nat) (l : list addr) (c : cache) : cres * nat :=
  match l with
  | [] => (COk c, 0)
  | dep :: l' =>
    match invalidate_by_id_w dbg (pr i) dep c with
    | (COk c', k1) => let '(r, k) := inv_each_w dbg pr (S i) l' c' in (r, 1 + k1 + k)
    | (r, k1) => (r, 1 + k1)
    end
  end.
Definition invalidate_dependents_w (dbg : bool) (pr : nat → nat → N → N) (a : addr) (c : cache) : cres * nat :=
  let '(r, k) :=
    match dependents c !! a with
    | Some set => inv_each_w dbg pr 1 (iter_order (pr 0 0) set) (set_dependents (delete a) c)
    | None => (COk c, 0)
    end in
  (match r with COk c' => COk (set_leafs ({[a]} ∪.) c') | r => r end, 2 + k).

(** internal.rs:367-399: [contains_artifact], [is_known], [artifacts.get_mut]. *)
Definition lookup_mut_w (dbg : bool) (pr : nat → nat → N → N) (a : addr) (t : ty) (c : cache) : (cres * lres) * nat :=
  let '(r, k) := invalidate_dependents_w dbg pr a c in
  (match r with
   | COk c' =>
     if dbg && (contains_artifact c' a && negb (is_known c' a)) then (COk c', LPanic PkDebug)
     else
       match artifacts c' !! a with
       | None => (COk c', LNone)
       | Some e => if (ar_ty e =? t)%N then (COk c', LSome (ar_bin e)) else (COk c', LPanic PkDowncast)
       end
   | r => (r, LNone)
   end, 3 + k).

(** internal.rs:733-757. *)
Definition purge_w (dbg : bool) (pr : nat → N → N) (a : addr) (c : cache) : cres * nat :=
  let c1 := set_known (delete a) c in
  let c2 := set_artifacts (delete a) c1 in
  let c3 := set_dyn_states (delete a) c2 in
  let '(r, k) := invalidate_by_id_w dbg pr a c3 in (r, 3 + k).

(** internal.rs:905-910. *)
Fixpoint gc_loop_w (dbg : bool) (pr : nat → nat → N → N) (i : nat) (l : list addr) (c : cache) : cres * nat :=
  match l with
  | [] => (COk c, 0)
  | bid :: l' =>
    match invalidate_by_id_w dbg (pr i) bid c with
    | (COk c1, k1) =>
      let c2 := set_dyn_states (delete bid) c1 in
      let c3 := set_known (delete bid) c2 in
      let c4 := set_leafs (.∖ {[bid]}) c3 in
      let '(r, k) := gc_loop_w dbg pr (S i) l' c4 in (r, 4 + k1 + k)
    | (r, k1) => (r, 4 + k1)
    end
  end.
(** internal.rs:884-911: for each known builder (debug builds only): handed out,
    [leafs.contains], [dependents[..]]; for each leaf: handed out, [known[..]], pushed. *)
Definition garbage_collection_w (dbg : bool) (pr : nat → nat → N → N) (alive : gset obj) (c : cache) : cres * nat :=
  let k0 := (if dbg then 3 * size (known c) else 0) + 3 * size (leafs c) in
  if dbg && negb (gc_check c) then (CPanic PkDebug c, k0)
  else
    let ls := iter_order (pr 0 0) (leafs c) in
    if forallb (is_known c) ls then
      let '(r, k) := gc_loop_w dbg pr 1 (filter (λ a, unreachable alive c a = true) ls) c in (r, k0 + k)
    else (CPanic PkGcIndex c, k0).

(** internal.rs:761-769: the entries dropped; each known builder handed out, [leafs.insert]. *)
Definition clear_artifacts_w (c : cache) : cache * nat :=
  (clear_artifacts c, 4 + size (artifacts c) + weigh (dependents c) + weigh (dependencies c) + 2 * size (known c)).
(** internal.rs:774-784. *)
Definition clear_all_w (c : cache) : cache * nat :=
  (clear_all c, 6 + size (artifacts c) + size (dyn_states c) + weigh (dependents c) + weigh (dependencies c)
                + size (known c) + size (leafs c)).

Section Work.
Context (E : env).
Notation wout A := (outcome A * nat)%type.

(** internal.rs:502-595; [get_ref] and [get_cloned] look up twice. *)
Definition get_with_w (bld : obj → st → wout bres) (h : how) (o : obj) (s : st) : wout rval :=
  match promise o s with
  | None => (Illegal, 0)
  | Some (d, a) =>
    if how_legal E h then
      match lookup_art (e_dbg E) (ch s) a (bd_aty d) with
      | LPanic k => (Panic k s, w_lookup)
      | LSome b => (Done (conv h b) s, w_lookup + match h with HBin => 0 | _ => w_lookup end)
      | LNone =>
        let '(r, k) := bld o s in
        (match r with
         | Done (BOk e) s' =>
           if (ar_ty e =? bd_aty d)%N then Done (conv h (ar_bin e)) s' else Panic PkDowncast s'
         | Done (BErr e) s' => Done (RvErr e) s'
         | Panic k s' => Panic k s'
         | NoFuel => NoFuel
         | Illegal => Illegal
         end, w_lookup + k)
      end
    else (Illegal, 0)
  end.

(** src/cache.rs:870-987. *)
Definition resolve_with_w (bld : obj → st → wout bres) (u : obj) (ua : addr) (h : how) (w : obj) (s : st) : wout rval :=
  match promise w s with
  | None => (Illegal, 0)
  | Some (_, wa) =>
    match track_dependency (e_dbg E) ua wa w (ch s) with
    | CPanic k c => (Panic k (set_ch c s), w_track)
    | CFuel => (NoFuel, 0)
    | COk c =>
      let '(r, k) := get_with_w bld h w (log (EResolve u w) (set_ch c s)) in
      (match r with Done r s' => Done r (log (EGot u w r) s') | x => x end, w_track + k)
    end
  end.

Fixpoint exec_w (bld : obj → st → wout bres) (u : obj) (ua : addr) (t : ty) (p : prog) (s : st)
    {struct p} : wout result :=
  match p with
  | PRet r => (Done r s, 0)
  | PPanic => (Panic PkUser s, 0)
  | PResolve h w k =>
    match resolve_with_w bld u ua h w s with
    | (Done r s', k1) => let '(x, k2) := exec_w bld u ua t (k r) s' in (x, k1 + k2)
    | (Panic k s', k1) => (Panic k s', k1)
    | (NoFuel, k1) => (NoFuel, k1)
    | (Illegal, k1) => (Illegal, k1)
    end
  | PState k =>
    match my_state (e_dbg E) ua t (ch s) with
    | inl pk => (Panic pk s, 0)
    | inr v => exec_w bld u ua t (k v) s
    end
  | PSetState v p =>
    match my_state (e_dbg E) ua t (ch s) with
    | inl pk => (Panic pk s, 0)
    | inr _ => exec_w bld u ua t p (set_ch (set_dyn_states <[ua := Dst t v]> (ch s)) s)
    end
  | PAsk k => exec_w bld u ua t (k (e_ask E (tick s))) (tock s)
  | PNewBin v k => exec_w bld u ua t (k (Bin (nbin s) v)) (set_nbin (N.succ (nbin s)) s)
  | PNew d k =>
    match alloc E d s with
    | None => (Illegal, 0)
    | Some (o, s') => exec_w bld u ua t (k o) s'
    end
  | PDrop w p =>
    match drop_obj w s with
    | None => (Illegal, 0)
    | Some s' => exec_w bld u ua t p s'
    end
  end.

(** internal.rs:426-497. *)
Fixpoint build_w (fuel : nat) (o : obj) (s : st) {struct fuel} : wout bres :=
  match fuel with
  | O => (NoFuel, 0)
  | S fuel' =>
    match promise o s with
    | None => (Illegal, 0)
    | Some (BDef aty sty init body, a) =>
      if e_dbg E && contains_artifact (ch s) a then (Panic PkDebug s, w_build)
      else
        let c1 := make_known a o (ch s) in
        match ensure_dyn_state a o sty init c1 with
        | (c2, inl k) => (Panic k (set_ch c2 s), w_build)
        | (c2, inr _) =>
          let s1 := set_reent (reent s || bool_decide (o ∈ stack s)) (set_stack (o :: stack s) (set_ch c2 s)) in
          let '(r, k) := exec_w (build_w fuel') o a sty body (log (ECall o) s1) in
          (match r with
           | Done (Ok b) s2 =>
             let c3 := set_artifacts <[a := Art aty b]> (ch s2) in
             let s3 := set_stack (stack s) (log (EBuilt o b) (set_ch c3 s2)) in
             match artifacts c3 !! a with
             | Some e => Done (BOk e) s3
             | None => Panic PkUnwrap s3
             end
           | Done (Err e) s2 => Done (BErr e) (set_stack (stack s) (log (EFailed o e) s2))
           | Panic k s2 => Panic k s2
           | NoFuel => NoFuel
           | Illegal => Illegal
           end, w_build + k)
        end
    end
  end.

(** internal.rs:555-577. *)
Definition get_mut_w (fuel : nat) (o : obj) (f : val → val) (s : st) : wout out :=
  match e_kind E, promise o s with
  | Boxed, Some (d, a) =>
    match lookup_mut_w (e_dbg E) (prio E s) a (bd_aty d) (ch s) with
    | ((COk c, LSome _), k1) =>
      let s1 := tock (set_ch c s) in
      let '(r, k2) := lookup_mut_w (e_dbg E) (prio E s1) a (bd_aty d) (ch s1) in
      (match r with
       | (COk c, LSome b) => Done (OutRes (RvVal (bin_val b))) (tock (set_ch (write_art a f c) s1))
       | (COk c, LNone) => Panic PkUnwrap (tock (set_ch c s1))
       | (COk c, LPanic k) => Panic k (tock (set_ch c s1))
       | (CPanic k c, _) => Panic k (tock (set_ch c s1))
       | (CFuel, _) => NoFuel
       end, k1 + k2)
    | ((COk c, LNone), k1) =>
      let '(r, k2) := build_w fuel o (tock (set_ch c s)) in
      (match r with
       | Done (BOk e) s' =>
         if (ar_ty e =? bd_aty d)%N
         then Done (OutRes (RvVal (bin_val (ar_bin e)))) (set_ch (write_art a f (ch s')) s')
         else Panic PkDowncast s'
       | Done (BErr e) s' => Done (OutRes (RvErr e)) s'
       | Panic k s' => Panic k s'
       | NoFuel => NoFuel
       | Illegal => Illegal
       end, k1 + k2)
    | ((COk c, LPanic k), k1) => (Panic k (tock (set_ch c s)), k1)
    | ((CPanic k c, _), k1) => (Panic k (tock (set_ch c s)), k1)
    | ((CFuel, _), k1) => (NoFuel, k1)
    end
  | _, _ => (Illegal, 0)
  end.

Definition lookup_mut_op_w (o : obj) (f : val → val) (s : st) : wout out :=
  match e_kind E, promise o s with
  | Boxed, Some (d, a) =>
    let '(r, k) := lookup_mut_w (e_dbg E) (prio E s) a (bd_aty d) (ch s) in
    (match r with
     | (COk c, LSome b) => Done (OutOpt (Some (RvVal (bin_val b)))) (tock (set_ch (write_art a f c) s))
     | (COk c, LNone) => Done (OutOpt None) (tock (set_ch c s))
     | (COk c, LPanic k) => Panic k (tock (set_ch c s))
     | (CPanic k c, _) => Panic k (tock (set_ch c s))
     | (CFuel, _) => NoFuel
     end, k)
  | _, _ => (Illegal, 0)
  end.

(** The calls; those not listed first do a fixed number of accesses: [lookup*] (as
    above), [dyn_state] (as [ensure_dyn_state]), [get_dyn_state] (internal.rs:663-679:
    [get], [is_known]), [is_builder_known] and [number_of_known_builders] (one each),
    none for making and dropping builders. *)
Definition step_w (fuel : nat) (x : op) (s : st) : wout out :=
  match x with
  | OGet h o =>
    let '(r, k) := get_with_w (build_w fuel) h o s in
    (match r with
     | Done r s' => Done (OutRes r) s'
     | Panic k s' => Panic k s'
     | NoFuel => NoFuel
     | Illegal => Illegal
     end, k)
  | OGetMut o f => get_mut_w fuel o f s
  | OLookupMut o f => lookup_mut_op_w o f s
  | ODynStateMut o f =>
    match promise o s with
    | None => (Illegal, 0)
    | Some (d, a) =>
      match invalidate_by_id_w (e_dbg E) (prio E s 0) a (ch s) with
      | (COk c, k) =>
        let s1 := log (EInvalidate o) (tock (set_ch c s)) in
        (match ensure_dyn_state a o (bd_sty d) (bd_init d) (ch s1) with
         | (c, inr v) => Done (OutVal v) (set_ch (set_dyn_states <[a := Dst (bd_sty d) (f v)]> c) s1)
         | (c, inl k) => Panic k (set_ch c s1)
         end, w_ensure + k)
      | (CPanic pk c, k) => (Panic pk (tock (set_ch c s)), k)
      | (CFuel, k) => (NoFuel, k)
      end
    end
  | OInvalidate o =>
    match promise o s with
    | None => (Illegal, 0)
    | Some (_, a) =>
      let '(r, k) := invalidate_by_id_w (e_dbg E) (prio E s 0) a (ch s) in
      (match lift r s with Done r s' => Done r (log (EInvalidate o) s') | x => x end, k)
    end
  | OPurge o =>
    match promise o s with
    | None => (Illegal, 0)
    | Some (_, a) =>
      let '(r, k) := purge_w (e_dbg E) (prio E s 0) a (ch s) in
      (match lift r s with Done r s' => Done r (log (EInvalidate o) s') | x => x end, k)
    end
  | OClearArtifacts =>
    let '(c, k) := clear_artifacts_w (ch s) in (Done OutUnit (set_ch c s), k)
  | OClearAll =>
    let '(c, k) := clear_all_w (ch s) in (Done OutUnit (log EClear (set_ch c s)), k)
  | OGc =>
    let '(r, k) := garbage_collection_w (e_dbg E) (prio E s) (alive s) (ch s) in (lift r s, k)
  | OLookup _ _ | OGetDynState _ => (step E fuel x s, w_lookup)
  | ODynState _ => (step E fuel x s, w_ensure)
  | OIsKnown _ | ONumKnown => (step E fuel x s, 1)
  | OAlloc _ | ODrop _ => (step E fuel x s, 0)
  end.

(** Histories with all the work done ([K]); [S]: the number of known and of leaf
    builders at each [garbage_collection] and [clear_artifacts], which look at all of
    them, added up. *)
Definition scanned (x : op) (s : st) : nat :=
  match x with
  | OGc | OClearArtifacts => size (known (ch s)) + size (leafs (ch s))
  | _ => 0
  end.
Inductive works : list (op * answer) → nat → nat → st → Prop :=
| works_nil : works [] 0 0 init_st
| works_done l K S s n x r s' k :
    works l K S s → step_w n x s = (Done r s', k) → works ((x, Returned r) :: l) (K + k) (S + scanned x s) s'
| works_panic l K S s n x pk s' k :
    works l K S s → step_w n x s = (Panic pk s', k) → resumable pk = true →
    works ((x, Panicked pk) :: l) (K + k) (S + scanned x s) (unwound s').
End Work.

(** How often builders have resolved something, so far. *)
Definition is_resolve (e : event) : bool := match e with EResolve _ _ => true | _ => false end.
Definition resolves (s : st) : nat := count is_resolve (trace s).
