(** /repo/src/contracts/collections/{pools,pool_keys,positions,ticks,fee_tiers}.rs,
    as operations on the state record. *)
From Verif Require Import Base Decimal SqrtPriceM Types TickmapM.
From stdpp Require Import gmap list.
Open Scope Z_scope.

(** Sequencing of a fallible function over a list ([iter().map(..).collect()]
    with panicking bodies, or a [for] loop with [?]). *)
Fixpoint mapM_res {A B} (f : A -> res B) (l : list A) : res (list B) :=
  match l with
  | [] => Ok []
  | a :: l' => let* b := f a in let* bs := mapM_res f l' in Ok (b :: bs)
  end.

Fixpoint foldM_res {A S} (f : S -> A -> res S) (l : list A) (s : S) : res S :=
  match l with
  | [] => Ok s
  | a :: l' => let* s' := f s a in foldM_res f l' s'
  end.

(** The range [lo..hi] of unsigned integers (empty when hi <= lo). *)
Definition range (lo hi : Z) : list Z := seqZ lo (hi - lo).

(** ** pools.rs *)

(** pools.rs:34-42 *)
Definition pools_get (s : state) (k : pool_key) : res pool := ok_or (s_pools s !! k) PoolNotFound.

(** pools.rs:10-17 *)
Definition pools_add (s : state) (k : pool_key) (p : pool) : res state :=
  match s_pools s !! k with
  | Some _ => Err PoolAlreadyExist
  | None => Ok (set_pools (<[k := p]> (s_pools s)) s)
  end.

(** pools.rs:19-24 *)
Definition pools_update (s : state) (k : pool_key) (p : pool) : res state :=
  let* _ := pools_get s k in Ok (set_pools (<[k := p]> (s_pools s)) s).

(** ** pool_keys.rs *)

(** pool_keys.rs:16-27; [+= 1] on u16 wraps in a release build. *)
Definition pool_keys_add (s : state) (k : pool_key) : res state :=
  match s_pool_keys s !! k with
  | Some _ => Err PoolKeyAlreadyExist
  | None =>
      let n := s_pool_keys_length s in
      Ok (set_pool_keys (<[k := n]> (s_pool_keys s)) (<[n := k]> (s_pool_keys_by_index s))
            ((n + 1) mod M16) s)
  end.

(** pool_keys.rs:46-58 *)
Definition pool_keys_get_all (s : state) (size offset : Z) : res (list pool_key) :=
  let* offset_with_size := expect (checked_add M16 offset size) in
  let max := if s_pool_keys_length s <? offset_with_size then s_pool_keys_length s
             else offset_with_size in
  mapM_res (fun i => expect (s_pool_keys_by_index s !! i)) (range offset max).

(** ** positions.rs *)

(** positions.rs:103-105 *)
Definition positions_get_length (s : state) (account : actor_id) : Z :=
  default 0 (s_positions_length s !! account).

(** positions.rs:73-80 *)
Definition positions_get (s : state) (account : actor_id) (index : Z) : res position :=
  ok_or (s_positions s !! (account, index)) PositionNotFound.

(** positions.rs:11-19; [+ 1] on u32 wraps in a release build. *)
Definition positions_add (s : state) (account : actor_id) (p : position) : state :=
  let n := positions_get_length s account in
  set_positions (<[account := (n + 1) mod M32]> (s_positions_length s))
    (<[(account, n) := p]> (s_positions s)) s.

(** positions.rs:21-37 *)
Definition positions_update (s : state) (account : actor_id) (index : Z) (p : position) : res state :=
  let n := positions_get_length s account in
  let* _ := fail_if (n <=? index) PositionNotFound in
  Ok (set_positions (s_positions_length s) (<[(account, index) := p]> (s_positions s)) s).

(** positions.rs:39-59; [positions_length - 1] on u32 wraps in a release build. *)
Definition positions_remove (s : state) (account : actor_id) (index : Z) : res (state * position) :=
  let n := positions_get_length s account in
  let* p := positions_get s account index in
  let last := (n - 1) mod M32 in
  let* m :=
    if index <? last then
      let* lp := expect (s_positions s !! (account, last)) in
      Ok (<[(account, index) := lp]> (delete (account, last) (s_positions s)))
    else Ok (delete (account, index) (s_positions s)) in
  Ok (set_positions (<[account := last]> (s_positions_length s)) m s, p).

(** positions.rs:61-71 *)
Definition positions_transfer (s : state) (account : actor_id) (index : Z) (receiver : actor_id)
    : res state :=
  let* (s, p) := positions_remove s account index in
  Ok (positions_add s receiver p).

(** positions.rs:82-86 *)
Definition positions_get_all (s : state) (account : actor_id) : res (list position) :=
  mapM_res (fun i => expect (s_positions s !! (account, i)))
    (range 0 (positions_get_length s account)).

(** positions.rs:88-101 *)
Definition positions_get_slice (s : state) (account : actor_id) (offset size : Z)
    : res (list position) :=
  let length := positions_get_length s account in
  let* offset_with_size := expect (checked_add M32 offset size) in
  let max := if length <? offset_with_size then length else offset_with_size in
  mapM_res (fun i => expect (s_positions s !! (account, i))) (range offset max).

(** ** ticks.rs *)

(** ticks.rs:38-45 *)
Definition ticks_get (s : state) (k : pool_key) (index : Z) : res tick :=
  ok_or (s_ticks s !! (k, index)) TickNotFound.

(** ticks.rs:10-17 *)
Definition ticks_add (s : state) (k : pool_key) (index : Z) (t : tick) : res state :=
  match s_ticks s !! (k, index) with
  | Some _ => Err TickAlreadyExist
  | None => Ok (set_ticks (<[(k, index) := t]> (s_ticks s)) s)
  end.

(** ticks.rs:19-29 *)
Definition ticks_update (s : state) (k : pool_key) (index : Z) (t : tick) : res state :=
  let* _ := ticks_get s k index in
  Ok (set_ticks (<[(k, index) := t]> (s_ticks s)) s).

(** ticks.rs:31-36 *)
Definition ticks_remove (s : state) (k : pool_key) (index : Z) : res state :=
  let* _ := ticks_get s k index in
  Ok (set_ticks (delete (k, index) (s_ticks s)) s).

(** ** fee_tiers.rs *)

(** fee_tiers.rs:31-33 *)
Definition fee_tiers_contains (l : list fee_tier) (t : fee_tier) : bool :=
  existsb (fun u => bool_decide (u = t)) l.

(** fee_tiers.rs:11-18 *)
Definition fee_tiers_add (l : list fee_tier) (t : fee_tier) : res (list fee_tier) :=
  if fee_tiers_contains l t then Err FeeTierAlreadyExist else Ok (l ++ [t]).

(** fee_tiers.rs:20-29: remove the first equal element. *)
Fixpoint remove_first (l : list fee_tier) (t : fee_tier) : option (list fee_tier) :=
  match l with
  | [] => None
  | u :: l' => if bool_decide (u = t) then Some l'
               else match remove_first l' t with Some r => Some (u :: r) | None => None end
  end.
Definition fee_tiers_remove (l : list fee_tier) (t : fee_tier) : res (list fee_tier) :=
  ok_or (remove_first l t) FeeTierNotFound.

(** pool_key.rs:27-50 ([PoolKey::new]) *)
Definition pool_key_new (token_0 token_1 : actor_id) (ft : fee_tier) : res pool_key :=
  if token_0 =? token_1 then Err TokensAreSame
  else if token_0 <? token_1 then Ok (mkPoolKey token_0 token_1 ft)
  else Ok (mkPoolKey token_1 token_0 ft).
