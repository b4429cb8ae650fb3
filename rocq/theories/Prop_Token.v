(** C56: the token program. *)
From Verif Require Import Base Types SpecSum TokenM SpecToken.
From stdpp Require Import gmap list.
From Coq Require Import ZArith Lia Bool.
Open Scope Z_scope.

Lemma ensure_Ok {R} r a (s : token_state R) v : ensure r a s = Ok v -> a ∈ holders r s.
Proof. unfold ensure, assert. destruct (bool_decide_reflect (a ∈ holders r s)); [auto|discriminate]. Qed.
Lemma ensure_yes {R} r a (s : token_state R) : a ∈ holders r s -> ensure r a s = Ok tt.
Proof. intros H. unfold ensure. rewrite bool_decide_true by auto. reflexivity. Qed.

Lemma circ_put b a v : circulating (<[a := v]> b) = circulating b - balance_of b a + v.
Proof. unfold circulating, balance_of. rewrite msum_put. destruct (b !! a); cbn; lia. Qed.
Lemma circ_del b a : circulating (delete a b) = circulating b - balance_of b a.
Proof. unfold circulating, balance_of. rewrite msum_del. destruct (b !! a); cbn; lia. Qed.
Lemma bal_put b a v a' : balance_of (<[a := v]> b) a' = if bool_decide (a' = a) then v else balance_of b a'.
Proof.
  unfold balance_of. destruct (bool_decide_reflect (a' = a)) as [->|]; [rewrite lookup_insert; reflexivity|].
  rewrite lookup_insert_ne by congruence. reflexivity.
Qed.
Lemma bal_del b a a' : balance_of (delete a b) a' = if bool_decide (a' = a) then 0 else balance_of b a'.
Proof.
  unfold balance_of. destruct (bool_decide_reflect (a' = a)) as [->|]; [rewrite lookup_delete; reflexivity|].
  rewrite lookup_delete_ne by congruence. reflexivity.
Qed.
Lemma circ_ge b a : (forall x, 0 <= balance_of b x) -> balance_of b a <= circulating b.
Proof.
  intros H. unfold balance_of. destruct (b !! a) as [v|] eqn:E; cbn.
  - unfold circulating. apply (msum_ge_one (fun v => v) b a v); auto.
    intros j y Hj. specialize (H j). unfold balance_of in H. rewrite Hj in H. exact H.
  - unfold circulating. apply msum_nonneg. intros j y Hj. specialize (H j). unfold balance_of in H. rewrite Hj in H. exact H.
Qed.

Lemma mint_inv b n to v b' n' x : token_mint b n to v = Ok (b', n', x) ->
  (v = 0 /\ b' = b /\ n' = n /\ x = false) \/
  (v <> 0 /\ b' = <[to := balance_of b to + v]> b /\ n' = n + v /\ n + v < M256 /\ x = true).
Proof.
  unfold token_mint. destruct (Z.eqb_spec v 0); [intros [= <- <- <-]; auto|].
  unfold checked_add. destruct (n + v <? M256) eqn:E1; [|discriminate].
  destruct (balance_of b to + v <? M256) eqn:E2; [|discriminate]. cbn. intros [= <- <- <-].
  apply Z.ltb_lt in E1. right. auto.
Qed.
Lemma burn_inv b n a v b' n' x : token_burn b n a v = Ok (b', n', x) ->
  (v = 0 /\ b' = b /\ n' = n /\ x = false) \/
  (v <> 0 /\ b' = (if negb (balance_of b a - v =? 0) then <[a := balance_of b a - v]> b else delete a b) /\
   n' = n - v /\ v <= n /\ v <= balance_of b a /\ x = true).
Proof.
  unfold token_burn. destruct (Z.eqb_spec v 0); [intros [= <- <- <-]; auto|].
  unfold checked_sub. destruct (v <=? n) eqn:E1; [|discriminate].
  destruct (v <=? balance_of b a) eqn:E2; [|discriminate]. cbn [ok_or bind].
  intros [= <- <- <-]. apply Z.leb_le in E1, E2. right. auto 10.
Qed.

(** What a successful call does, call by call. *)
Lemma run_inv {R} (D : inherited R) test caller s c s' x : token_run D test caller s c = Ok (s', x) ->
  match c with
  | TMint to v => caller ∈ tk_minters s /\ exists b n, token_mint (tk_balances s) (tk_supply s) to v = Ok (b, n, x) /\
                  s' = set_funds b n (tk_rest s) s
  | TBurn a v => caller ∈ tk_burners s /\ exists b n, token_burn (tk_balances s) (tk_supply s) a v = Ok (b, n, x) /\
                  s' = set_funds b n (tk_rest s) s
  | TGrant r a => caller ∈ tk_admins s /\ s' = set_holders r ({[a]} ∪ holders r s) s
  | TRevoke r a => caller ∈ tk_admins s /\ s' = set_holders r (holders r s ∖ {[a]}) s
  | TSetTransferFail f =>
      (test = true -> caller ∈ tk_admins s) /\
      s' = mkToken (tk_balances s) (tk_supply s) (tk_rest s) (tk_minters s) (tk_burners s) (tk_admins s)
             (if test then f else tk_transfer_fail s)
  | TInherited ic => exists b n r, D caller ic (tk_balances s) (tk_supply s) (tk_rest s) = Ok (b, n, r, x) /\
                  s' = set_funds b n r s
  end.
Proof.
  destruct c as [to v|a v|r a|r a|f|ic]; cbn [token_run].
  - intros H. destruct (ensure Minter caller s) eqn:E; cbn [bind] in H; try discriminate. apply ensure_Ok in E.
    destruct (token_mint _ _ _ _) as [[[b n] y]| | |]; cbn [bind] in H; try discriminate. injection H as <- <-. split; eauto.
  - intros H. destruct (ensure Burner caller s) eqn:E; cbn [bind] in H; try discriminate. apply ensure_Ok in E.
    destruct (token_burn _ _ _ _) as [[[b n] y]| | |]; cbn [bind] in H; try discriminate. injection H as <- <-. split; eauto.
  - intros H. destruct (ensure Admin caller s) eqn:E; cbn [bind] in H; try discriminate. apply ensure_Ok in E.
    injection H as <- <-. auto.
  - intros H. destruct (ensure Admin caller s) eqn:E; cbn [bind] in H; try discriminate. apply ensure_Ok in E.
    injection H as <- <-. auto.
  - destruct test.
    + intros H. destruct (ensure Admin caller s) eqn:E; cbn [bind] in H; try discriminate. apply ensure_Ok in E.
      injection H as <- <-. auto.
    + intros [= <- <-]. split; [discriminate|]. destruct s; reflexivity.
  - intros H. destruct (assert _); cbn [bind] in H; try discriminate.
    destruct (D _ _ _ _ _) as [[[[b n] r] y]| | |]; cbn [bind] in H; try discriminate. injection H as <- <-. eauto 6.
Qed.

(** Balances are nonnegative and add up to the supply, which is a 256-bit number and
    is what was minted less what was burnt. *)
Record sound {R} (log : list (actor_id * token_call)) (s : token_state R) : Prop := {
  so_nonneg : forall a, 0 <= balance_of (tk_balances s) a;
  so_sum : circulating (tk_balances s) = tk_supply s;
  so_range : tk_supply s < M256;
  so_log : tk_supply s = minted log - burnt log;
}.

Lemma sound_history {R} (D : inherited R) test rest d log s :
  conserving D -> token_history D test rest d log s -> sound log s.
Proof.
  intros HD H. induction H as [|log s caller c s' x H IH Hc E].
  - constructor; cbn; unfold balance_of; intros; rewrite ?lookup_empty; cbn; try lia; reflexivity.
  - destruct IH as [I1 I2 I3 I4]. apply run_inv in E. destruct c as [to v|a v|r a|r a|f|ic]; cbn [sensible_call] in Hc.
    + destruct E as (_ & b & n & E & ->). apply mint_inv in E as [(-> & -> & -> & _)|(Hv & -> & -> & L & _)].
      * constructor; cbn; auto.
      * constructor; cbn [set_funds tk_balances tk_supply]; auto.
        -- intros a. rewrite bal_put. case_bool_decide; [specialize (I1 to); lia|auto].
        -- rewrite circ_put. lia.
        -- unfold minted, burnt in *. cbn [foldr snd]. lia.
    + destruct E as (_ & b & n & E & ->). apply burn_inv in E as [(-> & -> & -> & _)|(Hv & -> & -> & L & L' & _)].
      * constructor; cbn; auto.
      * constructor; cbn [set_funds tk_balances tk_supply]; auto.
        -- intros a'. destruct (negb _); [rewrite bal_put|rewrite bal_del]; case_bool_decide; auto; lia.
        -- destruct (Z.eqb_spec (balance_of (tk_balances s) a - v) 0) as [E|E]; cbn [negb]; [rewrite circ_del|rewrite circ_put]; lia.
        -- lia.
        -- unfold minted, burnt in *. cbn [foldr snd]. lia.
    + destruct E as (_ & ->). constructor; auto.
    + destruct E as (_ & ->). constructor; auto.
    + destruct E as (_ & ->). constructor; auto.
    + destruct E as (b & n & r & E & ->). destruct (HD _ _ _ _ _ _ _ _ _ E I1) as (-> & E1 & E2).
      constructor; cbn [set_funds tk_balances tk_supply]; auto; lia.
Qed.

Theorem C56_supply {R} : forall (D : inherited R) test rest d log s,
  conserving D -> token_history D test rest d log s ->
  tk_supply s = circulating (tk_balances s) /\ tk_supply s = minted log - burnt log /\ tk_supply s < 2 ^ 256 /\
  (forall a, 0 <= balance_of (tk_balances s) a <= tk_supply s).
Proof.
  intros D test rest d log s HD H. destruct (sound_history _ _ _ _ _ _ HD H) as [I1 I2 I3 I4].
  split; [auto|]. split; [auto|]. split; [exact I3|]. intros a. split; [auto|]. rewrite <- I2. apply circ_ge; auto.
Qed.

(** Minting and burning do exactly what was asked, and succeed whenever that is possible. *)
Theorem C56_mint {R} : forall (D : inherited R) test rest d log s caller to v,
  conserving D -> token_history D test rest d log s -> 0 <= v < 2 ^ 256 ->
  (forall s' x, token_run D test caller s (TMint to v) = Ok (s', x) ->
     caller ∈ tk_minters s /\ funded s to v s' /\ (x = true <-> v <> 0)) /\
  (caller ∈ tk_minters s -> tk_supply s + v < 2 ^ 256 -> exists s' x, token_run D test caller s (TMint to v) = Ok (s', x)) /\
  (2 ^ 256 <= tk_supply s + v -> forall s' x, token_run D test caller s (TMint to v) <> Ok (s', x)).
Proof.
  intros D test rest d log s caller to v HD H Hv. destruct (C56_supply _ _ _ _ _ _ HD H) as (_ & _ & Hlt & Hb).
  split; [|split].
  - intros s' x E. apply run_inv in E as (Hc & b & n & E & ->). split; [auto|].
    apply mint_inv in E as [(-> & -> & -> & ->)|(Hv0 & -> & -> & L & ->)].
    + split; [|split; [discriminate|congruence]]. constructor; cbn; auto; lia.
    + split; [|split; auto]. constructor; cbn [set_funds tk_balances tk_supply tk_rest tk_transfer_fail]; auto.
      * rewrite bal_put, bool_decide_true by auto. reflexivity.
      * intros a Ha. rewrite bal_put, bool_decide_false by auto. reflexivity.
  - intros Hc L. cbn [token_run]. rewrite ensure_yes by auto. cbn [bind]. unfold token_mint.
    destruct (v =? 0); [cbn; eauto|]. unfold checked_add. specialize (Hb to).
    change M256 with (2 ^ 256). rewrite (proj2 (Z.ltb_lt _ _) L).
    rewrite (proj2 (Z.ltb_lt (balance_of (tk_balances s) to + v) (2 ^ 256))) by lia. cbn. eauto.
  - intros L s' x E. apply run_inv in E as (_ & b & n & E & _).
    apply mint_inv in E as [(-> & _)|(_ & _ & _ & E & _)]; [lia|]. change M256 with (2 ^ 256) in E. lia.
Qed.

Theorem C56_burn {R} : forall (D : inherited R) test rest d log s caller a v,
  conserving D -> token_history D test rest d log s -> 0 <= v < 2 ^ 256 ->
  (forall s' x, token_run D test caller s (TBurn a v) = Ok (s', x) ->
     caller ∈ tk_burners s /\ funded s a (- v) s' /\ (x = true <-> v <> 0)) /\
  (caller ∈ tk_burners s -> v <= balance_of (tk_balances s) a -> exists s' x, token_run D test caller s (TBurn a v) = Ok (s', x)) /\
  (balance_of (tk_balances s) a < v -> forall s' x, token_run D test caller s (TBurn a v) <> Ok (s', x)).
Proof.
  intros D test rest d log s caller a v HD H Hv. destruct (C56_supply _ _ _ _ _ _ HD H) as (_ & _ & Hlt & Hb).
  split; [|split].
  - intros s' x E. apply run_inv in E as (Hc & b & n & E & ->). split; [auto|].
    apply burn_inv in E as [(-> & -> & -> & ->)|(Hv0 & -> & -> & L & L' & ->)].
    + split; [|split; [discriminate|congruence]]. constructor; cbn; auto; lia.
    + split; [|split; auto]. constructor; cbn [set_funds tk_balances tk_supply tk_rest tk_transfer_fail]; auto; try lia.
      * destruct (Z.eqb_spec (balance_of (tk_balances s) a - v) 0); cbn [negb]; [rewrite bal_del|rewrite bal_put];
          rewrite bool_decide_true by auto; lia.
      * intros a' Ha. destruct (negb _); [rewrite bal_put|rewrite bal_del]; rewrite bool_decide_false by auto; reflexivity.
  - intros Hc L. cbn [token_run]. rewrite ensure_yes by auto. cbn [bind]. unfold token_burn.
    destruct (v =? 0); [cbn; eauto|]. unfold checked_sub. specialize (Hb a).
    rewrite (proj2 (Z.leb_le v (tk_supply s))), (proj2 (Z.leb_le v (balance_of (tk_balances s) a))) by lia. cbn. eauto.
  - intros L s' x E. apply run_inv in E as (_ & b & n & E & _).
    apply burn_inv in E as [(-> & _)|(_ & _ & _ & _ & E & _)]; [|lia]. specialize (Hb a). lia.
Qed.

(** Who may do what: the supply grows only by a minter, shrinks only by a burner, roles
    change only by an admin. *)
Theorem C56_powers {R} : forall (D : inherited R) test rest d log s caller c s' x,
  conserving D -> token_history D test rest d log s -> sensible_call c ->
  token_run D test caller s c = Ok (s', x) ->
  (tk_supply s < tk_supply s' -> caller ∈ tk_minters s) /\
  (tk_supply s' < tk_supply s -> caller ∈ tk_burners s) /\
  ((exists r, holders r s' <> holders r s) -> caller ∈ tk_admins s) /\
  (tk_transfer_fail s' <> tk_transfer_fail s -> caller ∈ tk_admins s /\ test = true).
Proof.
  intros D test rest d log s caller c s' x HD H Hc E. destruct (sound_history _ _ _ _ _ _ HD H) as [I1 _ _ _].
  apply run_inv in E. destruct c as [to v|a v|r a|r a|f|ic]; cbn [sensible_call] in Hc.
  - destruct E as (Hm & b & n & E & ->). apply mint_inv in E as [(-> & -> & -> & _)|(_ & -> & -> & _)];
      (split; [cbn; auto; lia|]; split; [cbn; auto; lia|]; split; [intros [[] HH]; destruct (HH eq_refl)|cbn; intros HH; destruct (HH eq_refl)]).
  - destruct E as (Hm & b & n & E & ->). apply burn_inv in E as [(-> & -> & -> & _)|(_ & -> & -> & _)];
      (split; [cbn; auto; lia|]; split; [cbn; auto; lia|]; split; [intros [[] HH]; destruct (HH eq_refl)|cbn; intros HH; destruct (HH eq_refl)]).
  - destruct E as (Hm & ->). split; [cbn; lia|]. split; [cbn; lia|]. split; [auto|]. cbn. intros HH. destruct (HH eq_refl).
  - destruct E as (Hm & ->). split; [cbn; lia|]. split; [cbn; lia|]. split; [auto|]. cbn. intros HH. destruct (HH eq_refl).
  - destruct E as (Hm & ->). split; [cbn; lia|]. split; [cbn; lia|]. split; [intros [[] HH]; destruct (HH eq_refl)|].
    cbn. destruct test; [auto|]. intros HH. destruct (HH eq_refl).
  - destruct E as (b & n & r & E & ->). destruct (HD _ _ _ _ _ _ _ _ _ E I1) as (-> & _).
    split; [cbn; lia|]. split; [cbn; lia|]. split; [intros [[] HH]; destruct (HH eq_refl)|]. cbn. intros HH. destruct (HH eq_refl).
Qed.

(** The holders of a role are those to whom it was last granted, and the deployer until revoked. *)
Theorem C56_roles {R} : forall (D : inherited R) test rest d log s r a,
  token_history D test rest d log s ->
  (a ∈ holders r s <-> last_decision r a log = Some true \/ (last_decision r a log = None /\ a = d)).
Proof.
  intros D test rest d log s r a H. induction H as [|log s caller c s' x H IH Hc E].
  - cbn. destruct r; cbn; rewrite elem_of_singleton; naive_solver.
  - apply run_inv in E. destruct c as [to v|a' v|r' a'|r' a'|f|ic]; cbn [last_decision].
    + destruct E as (_ & b & n & _ & ->). destruct r; exact IH.
    + destruct E as (_ & b & n & _ & ->). destruct r; exact IH.
    + destruct E as (_ & ->). case_bool_decide as B.
      * destruct B as [-> ->]. destruct r; cbn; set_solver.
      * destruct (decide (r' = r)) as [->|Hr].
        -- assert (a <> a') by naive_solver. rewrite <- IH. destruct r; cbn; set_solver.
        -- rewrite <- IH. destruct r, r'; try congruence; cbn; reflexivity.
    + destruct E as (_ & ->). case_bool_decide as B.
      * destruct B as [-> ->]. split; [|intros [?|[? _]]; discriminate]. destruct r; cbn; set_solver.
      * destruct (decide (r' = r)) as [->|Hr].
        -- assert (a <> a') by naive_solver. rewrite <- IH. destruct r; cbn; set_solver.
        -- rewrite <- IH. destruct r, r'; try congruence; cbn; reflexivity.
    + destruct E as (_ & ->). destruct r; exact IH.
    + destruct E as (b & n & r0 & _ & ->). destruct r; exact IH.
Qed.

(** Without an admin the roles never change again. *)
Inductive later {R} (D : inherited R) (test : bool) : token_state R -> token_state R -> Prop :=
| later_refl s : later D test s s
| later_step s caller c s1 x s2 : token_run D test caller s c = Ok (s1, x) -> later D test s1 s2 -> later D test s s2.
Theorem C56_no_admin {R} : forall (D : inherited R) test s s',
  tk_admins s = ∅ -> later D test s s' -> forall r, holders r s' = holders r s.
Proof.
  intros D test s s' E0 H. induction H as [|s caller c s1 x s2 E H IH]; [reflexivity|].
  assert (X : forall r, holders r s1 = holders r s).
  { apply run_inv in E. destruct c as [to v|a v|r a|r a|f|ic].
    - destruct E as (_ & b & n & _ & ->). intros []; reflexivity.
    - destruct E as (_ & b & n & _ & ->). intros []; reflexivity.
    - destruct E as (Hm & _). rewrite E0 in Hm. set_solver.
    - destruct E as (Hm & _). rewrite E0 in Hm. set_solver.
    - destruct E as (_ & ->). intros []; reflexivity.
    - destruct E as (b & n & r0 & _ & ->). intros []; reflexivity. }
  intros r. rewrite IH; [apply X|]. specialize (X Admin). cbn in X. congruence.
Qed.

(** Outside test builds no transfer is ever forced to fail: it does what the inherited service does. *)
Theorem C56_transfers {R} : forall (D : inherited R) rest d log s caller ic,
  token_history D false rest d log s ->
  match D caller ic (tk_balances s) (tk_supply s) (tk_rest s) with
  | Ok (b, n, r, x) => exists s', token_run D false caller s (TInherited ic) = Ok (s', x) /\
      tk_balances s' = b /\ tk_supply s' = n /\ tk_rest s' = r /\ forall r, holders r s' = holders r s
  | _ => forall s' x, token_run D false caller s (TInherited ic) <> Ok (s', x)
  end.
Proof.
  intros D rest d log s caller ic H. cbn [token_run].
  replace (match ic with ITransfer _ _ | ITransferFrom _ _ _ => false && tk_transfer_fail s | IApprove _ _ => false end) with false
    by (destruct ic; reflexivity).
  cbn [negb assert bind]. destruct (D _ _ _ _ _) as [[[[b n] r] x]| | |]; cbn [bind]; try discriminate.
  eexists. split; [reflexivity|]. cbn. repeat (split; [reflexivity|]). intros []; reflexivity.
Qed.

(** In test builds a transfer fails while the switch is on; otherwise every call does
    what the inherited service does. *)
Theorem C56_switch {R} : forall (D : inherited R) rest d log s caller ic,
  token_history D true rest d log s ->
  (is_transfer ic -> last_switch log = true -> forall s' x, token_run D true caller s (TInherited ic) <> Ok (s', x)) /\
  (~ is_transfer ic \/ last_switch log = false ->
   match D caller ic (tk_balances s) (tk_supply s) (tk_rest s) with
   | Ok (b, n, r, x) => exists s', token_run D true caller s (TInherited ic) = Ok (s', x) /\
       tk_balances s' = b /\ tk_supply s' = n /\ tk_rest s' = r /\ forall r, holders r s' = holders r s
   | _ => forall s' x, token_run D true caller s (TInherited ic) <> Ok (s', x)
   end).
Proof.
  intros D rest d log s caller ic H.
  assert (X : tk_transfer_fail s = last_switch log).
  { induction H as [|log s c0 c s' x H IH Hc E]; [reflexivity|].
    apply run_inv in E. destruct c as [to v|a' v|r' a'|r' a'|f|ic']; cbn [last_switch].
    - destruct E as (_ & b & n & _ & ->). exact IH.
    - destruct E as (_ & b & n & _ & ->). exact IH.
    - destruct E as (_ & ->). exact IH.
    - destruct E as (_ & ->). exact IH.
    - destruct E as (_ & ->). reflexivity.
    - destruct E as (b & n & r0 & _ & ->). exact IH. }
  cbn [token_run]. rewrite X. split.
  - intros T ->. destruct ic; try contradiction T; cbn [andb negb assert bind]; intros; discriminate.
  - intros T. replace (match ic with ITransfer _ _ | ITransferFrom _ _ _ => true && last_switch log | IApprove _ _ => false end) with false
      by (destruct ic; cbn in *; try reflexivity; symmetry; tauto).
    cbn [negb assert bind]. destruct (D _ _ _ _ _) as [[[[b n] r] x]| | |]; cbn [bind]; try discriminate.
    eexists. split; [reflexivity|]. cbn. repeat (split; [reflexivity|]). intros []; reflexivity.
Qed.

(** ** A case *)

(** An inherited service that only knows plain transfers: it is conserving. *)
Definition plain : inherited unit := fun caller ic b n r =>
  match ic with
  | ITransfer to v =>
      if (caller =? to) || (v =? 0) then Ok (b, n, r, false)
      else if (0 <=? v) && (v <=? balance_of b caller)
      then Ok (<[to := balance_of b to + v]> (<[caller := balance_of b caller - v]> b), n, r, true)
      else Err ETrack
  | _ => Err ETrack
  end.
Lemma plain_conserving : conserving plain.
Proof.
  intros caller ic b n r b' n' r' x. unfold plain. destruct ic as [to v| |]; try discriminate.
  destruct (Z.eqb_spec caller to) as [|Hne]; cbn [orb]; [intros [= <- <- <- <-]; auto|].
  destruct (v =? 0); [intros [= <- <- <- <-]; auto|].
  destruct (Z.leb_spec 0 v); cbn [andb]; [|discriminate].
  destruct (Z.leb_spec v (balance_of b caller)); [|discriminate]. intros [= <- <- <- <-] Hb.
  split; [auto|]. split.
  - rewrite !circ_put, bal_put, bool_decide_false by auto. lia.
  - intros a. rewrite !bal_put. repeat case_bool_decide; auto; [specialize (Hb to); lia|lia].
Qed.

(** Deployed by 1; 2 becomes minter, mints 100 to 3, who pays 40 to 4; 1 burns 40 of 3, and
    gives up being an admin. *)
Definition token_log : list (actor_id * token_call) :=
  [(1, TRevoke Admin 1); (1, TBurn 3 40); (3, TInherited (ITransfer 4 40)); (2, TMint 3 100); (1, TGrant Minter 2)].
Definition token_after (log : list (actor_id * token_call)) : res (token_state unit) :=
  foldr (fun '(caller, c) (r : res (token_state unit)) =>
           let* s := r in let* (s', _) := token_run plain false caller s c in Ok s') (Ok (token_seed tt 1)) log.
Lemma token_after_history log s : Forall (fun x => sensible_call (snd x)) log ->
  token_after log = Ok s -> token_history plain false tt 1 log s.
Proof.
  revert s. induction log as [|[caller c] log IH]; intros s F H.
  - injection H as <-. constructor.
  - unfold token_after in H. cbn [foldr] in H. fold (token_after log) in H. inversion_clear F as [|? ? F1 F2].
    destruct (token_after log) as [s0| | |]; cbn [bind] in H; try discriminate.
    destruct (token_run plain false caller s0 c) as [[s1 x]| | |] eqn:E; cbn [bind] in H; try discriminate.
    injection H as <-. econstructor; eauto.
Qed.
Example C56_case : exists s, token_history plain false tt 1 token_log s /\
  tk_supply s = 60 /\ balance_of (tk_balances s) 3 = 20 /\ balance_of (tk_balances s) 4 = 40 /\
  tk_admins s = ∅ /\ 2 ∈ tk_minters s /\ minted token_log = 100 /\ burnt token_log = 40 /\
  (forall s' x, token_run plain false 1 s (TGrant Minter 5) <> Ok (s', x)) /\
  (exists s', token_run plain false 2 s (TMint 4 (2 ^ 256 - 61)) = Ok (s', true)) /\
  (forall s' x, token_run plain false 2 s (TMint 4 (2 ^ 256 - 60)) <> Ok (s', x)) /\
  (forall s' x, token_run plain false 1 s (TBurn 3 21) <> Ok (s', x)).
Proof.
  assert (X : is_ok (token_after token_log) = true) by (vm_compute; reflexivity).
  destruct (token_after token_log) as [s| | |] eqn:E; try discriminate. exists s.
  assert (H : token_history plain false tt 1 token_log s).
  { apply token_after_history; [|exact E]. repeat constructor; cbn; lia. }
  split; [exact H|]. injection E as <-.
  split; [vm_compute; reflexivity|]. split; [vm_compute; reflexivity|]. split; [vm_compute; reflexivity|].
  split; [apply leibniz_equiv, size_empty_inv; vm_compute; reflexivity|]. split; [apply (C56_roles plain false tt 1 token_log _ Minter 2 H); left; vm_compute; reflexivity|].
  split; [vm_compute; reflexivity|]. split; [vm_compute; reflexivity|].
  split; [intros s' x; vm_compute; discriminate|]. split; [eexists; vm_compute; reflexivity|].
  split; intros s' x; vm_compute; discriminate.
Qed.

(** ** Assumptions *)
Print Assumptions C56_supply.
Print Assumptions C56_mint.
Print Assumptions C56_burn.
Print Assumptions C56_powers.
Print Assumptions C56_roles.
Print Assumptions C56_no_admin.
Print Assumptions C56_transfers.
Print Assumptions C56_switch.
