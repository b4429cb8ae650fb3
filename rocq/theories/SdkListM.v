(** How the SDK lists pools and positions: /repo/sdk/src/invariant.ts (lines below).

    Awaiting several queries is modelled as if they were answered in one contract
    state.  [Math.ceil(Number(a) / Number(b))] is exact for the 32-bit numbers that
    occur (the quotient of two integers below 2^53 that is not an integer is not
    rounded to one).  A thrown exception is [Err], a trapped query [Panic]. *)
From Verif Require Import Base Types TickmapM CollectionsM StateM ServiceM.
From stdpp Require Import gmap list.
Open Scope Z_scope.

(** wasm/consts.rs:10-11 *)
Definition MAX_POOL_KEYS_RETURNED : Z := 9590.
Definition POSITION_ENTRIES_LIMIT : Z := 1800.

(** [Math.ceil(a / b)] *)
Definition page_count (a b : Z) : Z := (a + b - 1) / b.

(** 184-193 *)
Definition sdk_get_all_pool_keys (s : state) : res (list pool_key) :=
  let* (pool_keys, count) := get_pool_keys s MAX_POOL_KEYS_RETURNED 0 in
  let* entries := mapM_res (fun i => get_pool_keys s MAX_POOL_KEYS_RETURNED (i * MAX_POOL_KEYS_RETURNED))
                    (range 1 (page_count count MAX_POOL_KEYS_RETURNED)) in
  Ok (pool_keys ++ concat (map fst entries)).

(** 299-301: [Array.sort] by index, which is stable *)
Fixpoint insert_by_index {A} (e : A * Z) (l : list (A * Z)) : list (A * Z) :=
  match l with
  | [] => [e]
  | e' :: l' => if snd e <=? snd e' then e :: l else e' :: insert_by_index e l'
  end.
Definition sort_by_index {A} (l : list (A * Z)) : list (A * Z) := foldr insert_by_index [] l.

(** 281-307; an entry is a position with its pool *)
Definition sdk_get_positions (s : state) (owner : actor_id) (size offset : Z)
    : res (list (position * pool) * Z) :=
  let* (groups, total) := get_positions s owner size offset in
  let flat := concat (map (fun '(p, entries) => map (fun '(pos, i) => (pos, p, i)) entries) groups) in
  Ok (map fst (sort_by_index flat), total).

(** 212-261.  [count] and [per_page] are optional; zero counts as missing. *)
Definition given (v : option Z) : option Z :=
  match v with Some c => if c =? 0 then None else Some c | None => None end.
Definition sdk_get_all_positions (s : state) (owner : actor_id) (count : option Z) (skip : list Z)
    (per_page : option Z) : res (list (Z * list (position * pool))) :=
  let includes i := existsb (Z.eqb i) skip in
  let first := default 0 (find (fun i => negb (includes i)) skip) in
  let limit := default POSITION_ENTRIES_LIMIT (given per_page) in
  let* (pages, actual) :=
    match given count with
    | Some c => Ok ([], c)
    | None =>
        let* (entries, total) := sdk_get_positions s owner limit (first * limit) in
        Ok ([(0, entries)], total)
    end in
  let start := match given count with Some _ => first | None => first + 1 end in
  let indexes := List.filter (fun i => negb (includes i)) (range start (page_count actual limit)) in
  let* entries := mapM_res (fun i => sdk_get_positions s owner limit (i * limit)) indexes in
  Ok (pages ++ zip indexes (map fst entries)).
