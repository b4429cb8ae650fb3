(** The target of a swap step (C15). *)
From Verif Require Import Base Decimal SqrtPriceM Types TickmapM Arith SpecMath P_Clamm P_TickPrice P_Tickmap.
From stdpp Require Import gmap.
From Coq Require Import ZArith Lia Bool.
Open Scope Z_scope.

Lemma okt_valid s t : okt s t -> valid_tick t.
Proof. intros [H _]. exact H. Qed.

Definition lo_lim (s c : Z) : Z := Z.max (c - 256 * s) (mint s).
Definition hi_lim (s c : Z) : Z := Z.min (c + 256 * s) (maxt s).

(** Outcome of the search towards lower prices. *)
Inductive closer_down (b : bitmap) (k : pool_key) (s lim c : Z) : res (Z * option (Z * bool)) -> Prop :=
| cd_tick u : lo_lim s c <= u <= c -> init b k s u -> (forall v, u < v <= c -> ~ init b k s v) ->
    lim < price u -> closer_down b k s lim c (Ok (price u, Some (u, true)))
| cd_tick_lim u : lo_lim s c <= u <= c -> init b k s u -> (forall v, u < v <= c -> ~ init b k s v) ->
    price u <= lim -> closer_down b k s lim c (Ok (lim, None))
| cd_end : (forall v, lo_lim s c <= v <= c -> ~ init b k s v) -> c = lo_lim s c ->
    closer_down b k s lim c (Err TickLimitReached)
| cd_far : (forall v, lo_lim s c <= v <= c -> ~ init b k s v) -> lo_lim s c < c ->
    lim < price (lo_lim s c) -> closer_down b k s lim c (Ok (price (lo_lim s c), Some (lo_lim s c, false)))
| cd_far_lim : (forall v, lo_lim s c <= v <= c -> ~ init b k s v) -> lo_lim s c < c ->
    price (lo_lim s c) <= lim -> closer_down b k s lim c (Ok (lim, None)).

Lemma get_closer_limit_down b k s lim c : wf_bitmap b -> 1 <= s -> okt s c ->
  closer_down b k s lim c (get_closer_limit b lim true c s k).
Proof.
  intros W Hs Ho. unfold get_closer_limit.
  destruct (prev_initialized_spec b k s c W Hs Ho) as (r & -> & H). fold (lo_lim s c) in H. cbn [bind].
  destruct r as [u|].
  - destruct H as (H1 & H2 & H3).
    rewrite calculate_sqrt_price_valid by (apply (okt_valid s); apply H2). cbn [unwrap bind andb orb negb].
    rewrite orb_false_r. destruct (Z.ltb_spec lim (price u)).
    + apply cd_tick; auto.
    + apply (cd_tick_lim b k s lim c u); auto.
  - cbn [negb]. rewrite search_limit_down by auto. fold (lo_lim s c). cbn [bind].
    pose proof (okt_down s c Hs Ho) as Ho2. fold (lo_lim s c) in Ho2.
    rewrite calculate_sqrt_price_valid by (apply (okt_valid s); auto). cbn [unwrap bind andb orb negb].
    assert (Hc : lo_lim s c <= c).
    { pose proof (proj1 (okt_bounds s c Hs) Ho). unfold lo_lim. lia. }
    destruct (Z.eqb_spec c (lo_lim s c)) as [E|E]; cbn [fail_if bind].
    + apply cd_end; auto.
    + rewrite orb_false_r. destruct (Z.ltb_spec lim (price (lo_lim s c))).
      * apply cd_far; auto. lia.
      * apply cd_far_lim; auto. lia.
Qed.

(** Outcome of the search towards higher prices. *)
Inductive closer_up (b : bitmap) (k : pool_key) (s lim c : Z) : res (Z * option (Z * bool)) -> Prop :=
| cu_tick u : c < u <= hi_lim s c -> init b k s u -> (forall v, c < v < u -> ~ init b k s v) ->
    price u < lim -> closer_up b k s lim c (Ok (price u, Some (u, true)))
| cu_tick_lim u : c < u <= hi_lim s c -> init b k s u -> (forall v, c < v < u -> ~ init b k s v) ->
    lim <= price u -> closer_up b k s lim c (Ok (lim, None))
| cu_end : (forall v, c < v <= hi_lim s c -> ~ init b k s v) -> c = hi_lim s c ->
    closer_up b k s lim c (Err TickLimitReached)
| cu_far : (forall v, c < v <= hi_lim s c -> ~ init b k s v) -> c < hi_lim s c ->
    price (hi_lim s c) < lim -> closer_up b k s lim c (Ok (price (hi_lim s c), Some (hi_lim s c, false)))
| cu_far_lim : (forall v, c < v <= hi_lim s c -> ~ init b k s v) -> c < hi_lim s c ->
    lim <= price (hi_lim s c) -> closer_up b k s lim c (Ok (lim, None)).

Lemma get_closer_limit_up b k s lim c : wf_bitmap b -> 1 <= s -> okt s c ->
  closer_up b k s lim c (get_closer_limit b lim false c s k).
Proof.
  intros W Hs Ho. unfold get_closer_limit.
  destruct (next_initialized_spec b k s c W Hs Ho) as (r & -> & H). fold (hi_lim s c) in H. cbn [bind].
  destruct r as [u|].
  - destruct H as (H1 & H2 & H3).
    rewrite calculate_sqrt_price_valid by (apply (okt_valid s); apply H2). cbn [unwrap bind andb orb negb].
    destruct (Z.ltb_spec (price u) lim).
    + apply cu_tick; auto.
    + apply (cu_tick_lim b k s lim c u); auto.
  - cbn [negb]. rewrite search_limit_up by auto. fold (hi_lim s c). cbn [bind].
    pose proof (okt_up s c Hs Ho) as Ho2. fold (hi_lim s c) in Ho2.
    rewrite calculate_sqrt_price_valid by (apply (okt_valid s); auto). cbn [unwrap bind andb orb negb].
    assert (Hc : c <= hi_lim s c).
    { pose proof (proj1 (okt_bounds s c Hs) Ho). unfold hi_lim. lia. }
    destruct (Z.eqb_spec c (hi_lim s c)) as [E|E]; cbn [fail_if bind].
    + apply cu_end; auto.
    + destruct (Z.ltb_spec (price (hi_lim s c)) lim).
      * apply cu_far; auto. lia.
      * apply cu_far_lim; auto. lia.
Qed.
