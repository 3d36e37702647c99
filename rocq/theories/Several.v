(** Several caches at a time (as in src/multi_level_test.rs), used one after the
    other, sharing builders.

    What belongs to a cache is in its lane; builders, the allocator, the bins and
    the clock are shared.  A call on one cache is [step] of System.v on what this
    cache can see.  The weak references of all caches pin their allocations
    (src/canning.rs: [WeakBuilder]; Rust's [Weak] keeps the memory), so that a new
    builder is not at the address of a builder another cache still knows.

    Simplification: a builder does not use another cache while it is being built
    (which a user can do with interior mutability; for the cache being used by the
    resolver, this is included in [PAsk], [PNew], [PDrop] and [PNewBin]; for all
    caches, see Nested.v). *)
From Verif Require Export System.

(** One cache: src/cache.rs:168-180. *)
Record lane := Lane { l_ch : cache; l_reent : bool; l_trace : list event }.
(** [Cache::new()] (src/cache.rs:216-232): a cache not used so far. *)
Definition new_lane : lane := Lane empty_cache false [].

Record mst := MSt { m_lanes : gmap nat lane; m_rest : st }.
Definition m_init : mst := MSt ∅ init_st.
Definition lane_of (m : mst) (i : nat) : lane := match m_lanes m !! i with Some l => l | None => new_lane end.

(** What cache [i] and its user see. *)
Definition view (i : nat) (m : mst) : st :=
  let w := m_rest m in let l := lane_of m i in
  St (l_ch l) (objs w) (alive w) (nobj w) (nbin w) (tick w) [] (l_reent l) (l_trace l).
(** After a call on cache [i]. *)
Definition put_lane (i : nat) (s : st) (m : mst) : mst :=
  MSt (<[i := Lane (ch s) (reent s) (trace s)]> (m_lanes m)) s.
(** [drop(cache)]. *)
Definition drop_lane (i : nat) (m : mst) : mst := MSt (delete i (m_lanes m)) (m_rest m).

(** Builders made by a call on cache [i] are not where another cache still has a
    weak reference. *)
Definition not_pinned (i : nat) (m : mst) (s' : st) : Prop :=
  ∀ j o d a, j ≠ i → (nobj (m_rest m) ≤ o)%N → objs s' !! o = Some (d, a) → known (l_ch (lane_of m j)) !! a = None.

Inductive mevent := MCall (i : nat) (x : op) (y : answer) | MDrop (i : nat).

Section Several.
(** The environment (its kind of cans is not used), and the kind of each cache. *)
Context (E : env) (K : nat → kind).
Definition lane_env (i : nat) : env := Env (e_ask E) (e_prio E) (e_dbg E) (K i).

(** Histories, newest first. *)
Inductive mruns : list mevent → mst → Prop :=
| mruns_nil : mruns [] m_init
| mruns_done l m i n x r s' :
    mruns l m → step (lane_env i) n x (view i m) = Done r s' → not_pinned i m s' →
    mruns (MCall i x (Returned r) :: l) (put_lane i s' m)
| mruns_panic l m i n x k s' :
    mruns l m → step (lane_env i) n x (view i m) = Panic k s' → resumable k = true → not_pinned i m s' →
    mruns (MCall i x (Panicked k) :: l) (put_lane i (unwound s') m)
| mruns_drop l m i : mruns l m → mruns (MDrop i :: l) (drop_lane i m).
End Several.

(** The calls made on cache [i] since it was made. *)
Fixpoint own (i : nat) (l : list mevent) : list (op * answer) :=
  match l with
  | [] => []
  | MCall j x y :: l => if decide (j = i) then (x, y) :: own i l else own i l
  | MDrop j :: l => if decide (j = i) then [] else own i l
  end.
