(** The order of calls about liquidity: proofs for C74. *)
From Verif Require Import Base Decimal SqrtPriceM LogM ClammM FeeGrowthM Types TickmapM StorageM
  CollectionsM StateM ServiceM Arith SpecMath SpecFees SpecSum SpecState SpecHistory SpecCost SpecIndep SpecTrace SpecOrder
  P_Clamm P_Fees P_Balance P_Tickmap P_Effects P_Positions P_History P_Inv P_InvPos P_InvHist P_PosOps P_Active P_Live P_Bals P_Indep P_Trace P_OpenClose P_Split
  Prop_Calls.
From stdpp Require Import gmap list.
From Coq Require Import ZArith Lia Bool.
Open Scope Z_scope.

(** ** Balances determine what is stored about them *)
Definition bals_strict (s : state) : Prop :=
  bals_pos s /\ forall u tokens, s_balances s !! u = Some tokens -> tokens <> ∅.

Lemma increase_strict s token user amount s' : bals_strict s -> 0 <= amount ->
  increase_token_balance s token user amount = Ok s' -> bals_strict s'.
Proof.
  intros [B N] Ha H. split; [eapply increase_pos; eauto|]. unfold increase_token_balance in H.
  destruct (Z.eqb_spec amount 0) as [->|Hn]; [injection H as <-; auto|].
  apply bind_Ok in H as (b & Hb & H). injection H as <-.
  intros u tokens. cbn [set_balances s_balances]. intros [[<- <-]|[Hu HS]]%lookup_insert_Some; [|eapply N; eauto].
  apply insert_non_empty.
Qed.

Lemma decrease_strict s token user amount s' v : bals_strict s -> (forall a, amount = Some a -> 0 <= a) ->
  decrease_token_balance s token user amount = Ok (s', v) -> bals_strict s' /\ 0 <= v.
Proof.
  intros [B N] Ha H. pose proof (decrease_pos _ _ _ _ _ _ B Ha H) as [B' Hv]. split; [|auto]. split; [auto|].
  unfold decrease_token_balance in H. destruct (bool_decide_reflect (amount = Some 0)); [injection H as <- _; auto|].
  apply bind_Ok in H as (tk & Et & H). apply bind_Ok in H as (b0 & Eb & H).
  assert (R : (if bool_decide (delete token tk = ∅) then Ok (set_balances (delete user (s_balances s)) s, b0)
       else Ok (set_balances (<[user:=delete token tk]> (s_balances s)) s, b0)) = Ok (s', v) ->
       forall u tokens, s_balances s' !! u = Some tokens -> tokens <> ∅).
  { intros E u tokens. destruct (bool_decide_reflect (delete token tk = ∅)); injection E as <- _; cbn [set_balances s_balances].
    - intros [_ HS]%lookup_delete_Some. eapply N; eauto.
    - intros [[<- <-]|[Hn HS]]%lookup_insert_Some; [assumption|eapply N; eauto]. }
  destruct amount as [a|]; [|exact (R H)]. destruct (Z.eqb_spec a b0) as [->|Hab]; cbn [negb] in H; [exact (R H)|].
  apply bind_Ok in H as (c & Ec & H). injection H as <- _.
  intros u tokens. cbn [set_balances s_balances]. intros [[<- <-]|[Hn HS]]%lookup_insert_Some; [|eapply N; eauto].
  apply insert_non_empty.
Qed.

Lemma strict_same s s' : s_balances s' = s_balances s -> bals_strict s -> bals_strict s'.
Proof. intros E [B N]. split; [eapply pos_same; eauto|]. rewrite E. auto. Qed.

Lemma bals_strict_history (G : state -> event -> Prop) evs s :
  (forall s ev, G s ev -> room s ev) -> history G evs s -> bals_strict s.
Proof.
  apply (gen_history bals_strict increase_strict decrease_strict strict_same).
  intros adm fee. split; [split|].
  - intros u t. unfold bal, balm, init_state. cbn. rewrite lookup_empty. cbn. rewrite lookup_empty. cbn. unfold u256. lia.
  - intros u tokens t. cbn. rewrite lookup_empty. discriminate.
  - intros u tokens. cbn. rewrite lookup_empty. discriminate.
Qed.

Lemma same_balances s s' u : bals_strict s -> bals_strict s' -> (forall t, bal s u t = bal s' u t) ->
  s_balances s !! u = s_balances s' !! u.
Proof.
  intros [[B0 B] N] [[B0' B'] N'] E. unfold bal, balm in E.
  assert (NE : forall m : gmap actor_id Z, m <> ∅ -> exists t v, m !! t = Some v).
  { intros m Hm. apply map_choose in Hm as (t & v & Hv). eauto. }
  destruct (s_balances s !! u) as [m|] eqn:Em, (s_balances s' !! u) as [m'|] eqn:Em'; cbn in E; [..|reflexivity].
  - f_equal. apply map_eq. intros t. specialize (E t).
    destruct (m !! t) as [v|] eqn:E1, (m' !! t) as [v'|] eqn:E2; cbn in E; [congruence|..|reflexivity].
    + subst v. now apply (B _ _ _ Em) in E1.
    + subst v'. now apply (B' _ _ _ Em') in E2.
  - destruct (NE m (N _ _ Em)) as (t & v & Hv). specialize (E t). rewrite Hv, lookup_empty in E. cbn in E. subst v. now apply (B _ _ _ Em) in Hv.
  - destruct (NE m' (N' _ _ Em')) as (t & v & Hv). specialize (E t). rewrite Hv, lookup_empty in E. cbn in E. subst v. now apply (B' _ _ _ Em') in Hv.
Qed.

(** ** What one call does, as far as the others can tell *)
Record acts (e : env) (s s' : state) (k : pool_key) (p : pool) (lo up d x y : Z) : Prop := {
  a_pool : s_pools s !! k = Some p;
  a_pools : s_pools s' = <[k := with_liq p lo up d (e_timestamp e)]> (s_pools s);
  a_cfg : same_cfg s s';
  a_else : forall k', k' <> k -> same_part (PoolPart k') s s';
  a_others : forall v, v <> e_caller e -> same_part (UserPart v) s s';
  a_ledger : ledger s s' (both (at_ (e_caller e) (pk_token_x k) x) (at_ (e_caller e) (pk_token_y k) y));
}.

(** What a tick has recorded, or would record if it came into being now. *)
Definition outs (s : state) (ts : Z) (k : pool_key) (p : pool) (j : Z) : Z * Z * Z :=
  match s_ticks s !! (k, j) with
  | Some t => (t_fee_growth_outside_x t, t_fee_growth_outside_y t, t_seconds_outside t)
  | None => if j <=? p_current_tick_index p
            then (p_fee_growth_global_x p, p_fee_growth_global_y p, (ts - p_start_timestamp p) mod M64)
            else (0, 0, 0)
  end.
Definition grows (ts : Z) (k : pool_key) (p : pool) (s s' : state) : Prop := forall j, outs s' ts k p j = outs s ts k p j.
Definition shrinks (s s' : state) : Prop :=
  forall kj t', s_ticks s' !! kj = Some t' -> exists t, s_ticks s !! kj = Some t /\ kept t t'.

Lemma outs_with_liq s ts k p lo up d t j : outs s ts k (with_liq p lo up d t) j = outs s ts k p j.
Proof. reflexivity. Qed.

Lemma outs_kept s s' ts k p j t t' : outs s ts k p j = outs s' ts k p j ->
  s_ticks s !! (k, j) = Some t -> s_ticks s' !! (k, j) = Some t' -> kept t t'.
Proof. unfold outs. intros E H1 H2. rewrite H1, H2 in E. injection E as E1 E2 E3. split; [auto|split; auto]. Qed.

Lemma create_else s e o k : changes s (Call e o) = [UserPart (e_caller e); PoolPart k] \/ changes s (Call e o) = [UserPart (e_caller e)] ->
  forall s', run_op e s o = Ok s' ->
  (forall k', k' <> k -> same_part (PoolPart k') s s') /\ (forall v, v <> e_caller e -> same_part (UserPart v) s s').
Proof.
  intros EC s' E. assert (K1 := proj2 (call_keeps s (Call e o))). cbn [exec_event] in K1. unfold exec_op in K1. rewrite E in K1.
  split; intros z Hz; apply K1; destruct EC as [-> | ->]; rewrite !elem_of_cons, ?elem_of_nil; intuition congruence.
Qed.

Lemma create_acts e s k lo up L sl su s' pos : Inv s -> u256 L -> create_position e s k lo up L sl su = Ok (s', pos) ->
  exists p x y mx, created e s s' k lo up L sl su pos p x y mx /\ acts e s s' k p lo up L (- x) (- y) /\ grows (e_timestamp e) k p s s'.
Proof.
  intros I HL E. destruct (create_summary _ _ _ _ _ _ _ _ _ _ I HL E) as (p & x & y & mx & C). exists p, x, y, mx. split; [exact C|].
  destruct (create_else s e (OpCreatePosition k lo up L sl su) k (or_introl eq_refl) s') as [K1 K2].
  { cbn [run_op]. rewrite E. reflexivity. }
  split; [constructor; auto; apply C|].
  destruct (create_base _ _ _ _ _ _ _ _ _ _ I HL E) as (tl0 & al & tu0 & au & tl & tu & G1 & G2 & ET & Kl & Ku).
  assert (GO : forall j t b, get_or_create_tick s (e_timestamp e) k j = Ok (t, b) ->
    outs s (e_timestamp e) k p j = (t_fee_growth_outside_x t, t_fee_growth_outside_y t, t_seconds_outside t)).
  { intros j t b. unfold get_or_create_tick, outs. destruct (s_ticks s !! (k, j)) as [t0|]; [intros [= <- _]; reflexivity|].
    intros H. apply bind_Ok in H as (t0 & E0 & H). injection H as <- _. apply unwrap_inv in E0. unfold create_tick in E0.
    apply bind_Ok in E0 as (? & _ & E0). apply bind_Ok in E0 as (p' & Hp & E0). apply pools_get_Ok in Hp.
    rewrite (cr_pool _ _ _ _ _ _ _ _ _ _ _ _ _ _ C) in Hp. injection Hp as <-. unfold tick_create in E0.
    apply bind_Ok in E0 as (sp & _ & E0). injection E0 as <-. cbn. destruct (j <=? _); reflexivity. }
  apply GO in G1, G2. intros j. unfold outs at 1. rewrite ET.
  destruct (decide ((k, up) = (k, j))) as [[= <-]|N1].
  - rewrite lookup_insert, G2. destruct Ku as (-> & -> & ->). reflexivity.
  - rewrite lookup_insert_ne by exact N1. destruct (decide ((k, lo) = (k, j))) as [[= <-]|N2].
    + rewrite lookup_insert, G1. destruct Kl as (-> & -> & ->). reflexivity.
    + rewrite lookup_insert_ne by exact N2. reflexivity.
Qed.

Lemma remove_acts e s i s' x y : Inv s -> remove_position e s i = Ok (s', (x, y)) ->
  exists pos p tl tu dx dy ox oy, removed e s s' i x y pos p tl tu dx dy ox oy /\
    acts e s s' (pos_pool_key pos) p (pos_lower pos) (pos_upper pos) (- pos_liquidity pos) x y /\ shrinks s s' /\
    s_positions_length s' = <[e_caller e := last_index s (e_caller e)]> (s_positions_length s).
Proof.
  intros I E. destruct (remove_summary _ _ _ _ _ _ I E) as (pos & p & tl & tu & dx & dy & ox & oy & R).
  exists pos, p, tl, tu, dx, dy, ox, oy. split; [exact R|].
  destruct (create_else s e (OpRemovePosition i) (pos_pool_key pos)) with (s' := s') as [K1 K2].
  { left. cbn [changes]. unfold pool_of_position. now rewrite (rm_pos _ _ _ _ _ _ _ _ _ _ _ _ _ _ R). }
  { cbn [run_op]. rewrite E. reflexivity. }
  destruct (remove_kept _ _ _ _ _ _ I E) as [RK RL].
  split; [constructor; auto; apply R|]. split; [|exact RL]. intros [k j] t' Ht. now apply RK.
Qed.

Lemma claim_acts e s i s' x y : Inv s -> Inv s' -> claim_fee e s i = Ok (s', (x, y)) ->
  exists pos p tl tu mx, claimed e s s' i x y pos p tl tu mx /\
    acts e s s' (pos_pool_key pos) p (pos_lower pos) (pos_upper pos) 0 x y /\
    shrinks s s' /\ grows (e_timestamp e) (pos_pool_key pos) p s s' /\
    s_positions_length s' = s_positions_length s.
Proof.
  intros I I' E. destruct (claim_summary _ _ _ _ _ _ I E) as (pos & p & tl & tu & mx & C).
  exists pos, p, tl, tu, mx. split; [exact C|].
  destruct (create_else s e (OpClaimFee i) (pos_pool_key pos)) with (s' := s') as [K1 K2].
  { left. cbn [changes]. unfold pool_of_position. now rewrite (cl_pos _ _ _ _ _ _ _ _ _ _ _ C). }
  { cbn [run_op]. rewrite E. reflexivity. }
  assert (ET : exists tl' tu', s_ticks s' = <[(pos_pool_key pos, pos_lower pos) := tl']> (<[(pos_pool_key pos, pos_upper pos) := tu']> (s_ticks s)) /\
     kept tl tl' /\ kept tu tu' /\ s_positions_length s' = s_positions_length s).
  { pose proof E as H. apply claim_fee_inv in H
      as (pos0 & tl0 & tu0 & p0 & pos' & p' & tu' & tl' & dx & dy & B & H). cbv zeta in H.
    destruct H as (Hpos & Htl & Htu & Hp & PM & _ & _ & _ & Es' & _).
    rewrite (cl_pos _ _ _ _ _ _ _ _ _ _ _ C) in Hpos. injection Hpos as <-.
    pose proof (I_pos _ I _ _ _ (cl_pos _ _ _ _ _ _ _ _ _ _ _ C)) as SO.
    pose proof (proj2 (I_tick _ I _ _ _ Htl)) as TO1. pose proof (proj2 (I_tick _ I _ _ _ Htu)) as TO2.
    destruct (position_modify_facts s pos p0 tu0 tl0 _ _ _ pos' p' tu' tl' dx dy TO1 TO2 SO PM)
      as (mx' & u & ox & oy & Hmx & U1 & U2 & F1 & F2 & EP & AD & EP' & Hu & Eu & I1 & I2).
    apply tick_update_inv in U1 as (_ & _ & X1 & Y1 & Z1 & _). apply tick_update_inv in U2 as (_ & _ & X2 & Y2 & Z2 & _).
    rewrite (cl_tl _ _ _ _ _ _ _ _ _ _ _ C) in Htl. injection Htl as <-. rewrite (cl_tu _ _ _ _ _ _ _ _ _ _ _ C) in Htu. injection Htu as <-.
    rewrite I1, I2 in Es'. subst s'. exists tl', tu'. split; [reflexivity|]. split; [split; auto|]. split; [split; auto|reflexivity]. }
  destruct ET as (tl' & tu' & ET & Kl & Ku & EL).
  split; [|split; [|split; [|exact EL]]].
  - constructor; auto; try apply C. rewrite (cl_pools _ _ _ _ _ _ _ _ _ _ _ C). f_equal. unfold with_liq. rewrite Z.add_0_r. destruct p; cbn. now destruct (in_range _ _ _).
  - intros kj t' Ht. rewrite ET in Ht. apply lookup_insert_Some in Ht as [[<- <-]|[_ Ht]]; [exists tl; split; [apply C|exact Kl]|].
    apply lookup_insert_Some in Ht as [[<- <-]|[_ Ht]]; [exists tu; split; [apply C|exact Ku]|]. exists t'. split; [exact Ht|apply kept_refl].
  - intros j. unfold outs. rewrite ET. destruct (decide ((pos_pool_key pos, pos_lower pos) = (pos_pool_key pos, j))) as [[= <-]|N1].
    + rewrite lookup_insert, (cl_tl _ _ _ _ _ _ _ _ _ _ _ C). destruct Kl as (-> & -> & ->). reflexivity.
    + rewrite lookup_insert_ne by exact N1. destruct (decide ((pos_pool_key pos, pos_upper pos) = (pos_pool_key pos, j))) as [[= <-]|N2].
      * rewrite lookup_insert, (cl_tu _ _ _ _ _ _ _ _ _ _ _ C). destruct Ku as (-> & -> & ->). reflexivity.
      * rewrite lookup_insert_ne by exact N2. reflexivity.
Qed.

(** ** Two calls in either order *)
Definition same_holdings (u : actor_id) (s s' : state) : Prop :=
  s_positions_length s !! u = s_positions_length s' !! u /\ forall n, s_positions s !! (u, n) = s_positions s' !! (u, n).

Section order.
  Context (e e' : env) (s sa sb sab sba : state) (k : pool_key) (p pa pb : pool) (lo up d x y lo' up' d' x' y' : Z).
  Hypothesis (NU : e_caller e <> e_caller e') (ET : e_timestamp e' = e_timestamp e)
    (I1 : Inv sab) (I2 : Inv sba) (B1 : bals_strict sab) (B2 : bals_strict sba)
    (A : acts e s sa k p lo up d x y) (B : acts e' s sb k p lo' up' d' x' y')
    (AB : acts e' sa sab k pa lo' up' d' x' y') (BA : acts e sb sba k pb lo up d x y)
    (HU : same_holdings (e_caller e) sa sba) (HV : same_holdings (e_caller e') sb sab)
    (HT : (grows (e_timestamp e) k p s sa /\ grows (e_timestamp e) k p s sb /\
           grows (e_timestamp e) k pa sa sab /\ grows (e_timestamp e) k pb sb sba) \/
          (shrinks s sa /\ shrinks s sb /\ shrinks sa sab /\ shrinks sb sba)).

  Lemma order_pools : pa = with_liq p lo up d (e_timestamp e) /\ pb = with_liq p lo' up' d' (e_timestamp e').
  Proof using All.
    pose proof (a_pool _ _ _ _ _ _ _ _ _ _ AB) as E1. rewrite (a_pools _ _ _ _ _ _ _ _ _ _ A), lookup_insert in E1.
    pose proof (a_pool _ _ _ _ _ _ _ _ _ _ BA) as E2. rewrite (a_pools _ _ _ _ _ _ _ _ _ _ B), lookup_insert in E2.
    split; congruence.
  Qed.

  Lemma order_positions w n : s_positions sab !! (w, n) = s_positions sba !! (w, n).
  Proof using All.
    destruct (Z.eq_dec w (e_caller e)) as [->|N1].
    - destruct (a_others _ _ _ _ _ _ _ _ _ _ AB (e_caller e) NU) as (_ & _ & <-). apply HU.
    - destruct (Z.eq_dec w (e_caller e')) as [->|N2].
      + destruct (a_others _ _ _ _ _ _ _ _ _ _ BA (e_caller e') (not_eq_sym NU)) as (_ & _ & <-). symmetry. apply HV.
      + destruct (a_others _ _ _ _ _ _ _ _ _ _ AB w N2) as (_ & _ & <-). destruct (a_others _ _ _ _ _ _ _ _ _ _ A w N1) as (_ & _ & <-).
        destruct (a_others _ _ _ _ _ _ _ _ _ _ BA w N1) as (_ & _ & <-). destruct (a_others _ _ _ _ _ _ _ _ _ _ B w N2) as (_ & _ & <-). reflexivity.
  Qed.
  Lemma order_lengths w : s_positions_length sab !! w = s_positions_length sba !! w.
  Proof using All.
    destruct (Z.eq_dec w (e_caller e)) as [->|N1].
    - destruct (a_others _ _ _ _ _ _ _ _ _ _ AB (e_caller e) NU) as (_ & <- & _). apply HU.
    - destruct (Z.eq_dec w (e_caller e')) as [->|N2].
      + destruct (a_others _ _ _ _ _ _ _ _ _ _ BA (e_caller e') (not_eq_sym NU)) as (_ & <- & _). symmetry. apply HV.
      + destruct (a_others _ _ _ _ _ _ _ _ _ _ AB w N2) as (_ & <- & _). destruct (a_others _ _ _ _ _ _ _ _ _ _ A w N1) as (_ & <- & _).
        destruct (a_others _ _ _ _ _ _ _ _ _ _ BA w N1) as (_ & <- & _). destruct (a_others _ _ _ _ _ _ _ _ _ _ B w N2) as (_ & <- & _). reflexivity.
  Qed.

  Lemma order_kept k0 j t t' : s_ticks sab !! (k0, j) = Some t -> s_ticks sba !! (k0, j) = Some t' -> kept t t'.
  Proof using All.
    intros H1 H2. destruct (decide (k0 = k)) as [->|N].
    - destruct order_pools as [EA EB]. destruct HT as [(G1 & G2 & G3 & G4)|(S1 & S2 & S3 & S4)].
      + specialize (G1 j). specialize (G2 j). specialize (G3 j). specialize (G4 j). rewrite EA in G3. rewrite EB in G4. rewrite !outs_with_liq in *.
        eapply (outs_kept sab sba (e_timestamp e) k p j); [congruence|exact H1|exact H2].
      + apply S3 in H1 as (t1 & H1 & K1). apply S1 in H1 as (t0 & H1 & K0). apply S4 in H2 as (t2 & H2 & K2). apply S2 in H2 as (t0' & H2 & K0').
        rewrite H1 in H2. injection H2 as <-. destruct K0 as (a1 & a2 & a3), K1 as (b1 & b2 & b3), K2 as (c1 & c2 & c3), K0' as (d1 & d2 & d3).
        split; [congruence|split; congruence].
    - destruct (a_else _ _ _ _ _ _ _ _ _ _ AB k0 N) as (_ & E1 & _). destruct (a_else _ _ _ _ _ _ _ _ _ _ A k0 N) as (_ & E2 & _).
      destruct (a_else _ _ _ _ _ _ _ _ _ _ BA k0 N) as (_ & E3 & _). destruct (a_else _ _ _ _ _ _ _ _ _ _ B k0 N) as (_ & E4 & _).
      rewrite <- E1, <- E2 in H1. rewrite <- E3, <- E4 in H2. rewrite H1 in H2. injection H2 as <-. apply kept_refl.
  Qed.

  Lemma order_sim w : sim true w sab sba.
  Proof using All.
    assert (EP : s_positions sab = s_positions sba) by (apply map_eq; intros [v n]; apply order_positions).
    destruct (ticks_from_positions sab sba I1 I2) as [TT TB].
    { intros k0 j. unfold gross_at. now rewrite EP. }
    { intros k0 j. unfold net_at. now rewrite EP. }
    { exact order_kept. }
    destruct order_pools as [EA EB].
    pose proof (a_cfg _ _ _ _ _ _ _ _ _ _ A) as (c1 & c2 & c3 & c4 & c5 & c6 & c7).
    pose proof (a_cfg _ _ _ _ _ _ _ _ _ _ B) as (d1 & d2 & d3 & d4 & d5 & d6 & d7).
    pose proof (a_cfg _ _ _ _ _ _ _ _ _ _ AB) as (f1 & f2 & f3 & f4 & f5 & f6 & f7).
    pose proof (a_cfg _ _ _ _ _ _ _ _ _ _ BA) as (g1 & g2 & g3 & g4 & g5 & g6 & g7).
    constructor; try congruence.
    - split; [congruence|split; congruence].
    - pose proof (I_pool _ I1) as PO. intros k'. specialize (PO k'). revert PO.
      rewrite (a_pools _ _ _ _ _ _ _ _ _ _ AB), (a_pools _ _ _ _ _ _ _ _ _ _ BA), (a_pools _ _ _ _ _ _ _ _ _ _ A), (a_pools _ _ _ _ _ _ _ _ _ _ B).
      rewrite !insert_insert. destruct (decide (k = k')) as [<-|N].
      + rewrite !lookup_insert. intros PO. specialize (PO _ eq_refl). cbn. split; [|apply u256_M; apply PO].
        exists (e_timestamp e). rewrite EA, EB. unfold with_liq. destruct p. cbn.
        destruct (in_range lo up _), (in_range lo' up' _); unfold set_liquidity, set_last_timestamp; cbn; f_equal; lia.
      + rewrite !lookup_insert_ne by exact N. intros PO. destruct (s_pools s !! k') as [q|]; cbn; [|exact Logic.I].
        split; [exists (p_last_timestamp q); destruct q; reflexivity|]. apply u256_M. apply (PO _ eq_refl).
    - exact TT.
    - intros [v n] _. rewrite EP. destruct (s_positions sba !! (v, n)) as [q|] eqn:Eq; cbn; [|exact Logic.I]. split; [reflexivity|].
      pose proof (so_liq _ _ (I_pos _ I2 _ _ _ Eq)). unfold posok. lia.
    - intros v _. unfold positions_get_length. now rewrite order_lengths.
    - intros v _. apply same_balances; auto. intros t.
      rewrite (a_ledger _ _ _ _ _ _ _ _ _ _ AB v t), (a_ledger _ _ _ _ _ _ _ _ _ _ A v t), (a_ledger _ _ _ _ _ _ _ _ _ _ BA v t), (a_ledger _ _ _ _ _ _ _ _ _ _ B v t). lia.
  Qed.
End order.

(** ** A call that succeeds still succeeds when the other one comes first *)
Record view (w : actor_id) (k : pool_key) (s1 s0 : state) (p1 p0 : pool) : Prop := {
  v_user : same_part (UserPart w) s1 s0;
  v_pool1 : s_pools s1 !! k = Some p1;
  v_pool0 : s_pools s0 !! k = Some p0;
  v_same : p_sqrt_price p1 = p_sqrt_price p0 /\ p_current_tick_index p1 = p_current_tick_index p0 /\
           p_fee_growth_global_x p1 = p_fee_growth_global_x p0 /\ p_fee_growth_global_y p1 = p_fee_growth_global_y p0;
  v_kept : forall j t1 t0, s_ticks s1 !! (k, j) = Some t1 -> s_ticks s0 !! (k, j) = Some t0 -> kept t1 t0;
}.

Lemma view_bal w k s1 s0 p1 p0 t : view w k s1 s0 p1 p0 -> bal s0 w t = bal s1 w t.
Proof. intros V. destruct (v_user _ _ _ _ _ _ V) as (E & _). unfold bal, balm. now rewrite E. Qed.

Lemma view_inside w k s1 s0 p1 p0 lo up tl tu tl0 tu0 : Inv s1 -> Inv s0 -> view w k s1 s0 p1 p0 ->
  s_ticks s1 !! (k, lo) = Some tl -> s_ticks s1 !! (k, up) = Some tu ->
  s_ticks s0 !! (k, lo) = Some tl0 -> s_ticks s0 !! (k, up) = Some tu0 ->
  inside_x p0 tl0 tu0 = inside_x p1 tl tu /\ inside_y p0 tl0 tu0 = inside_y p1 tl tu.
Proof.
  intros I1 I0 V H1 H2 H3 H4. destruct (v_same _ _ _ _ _ _ V) as (_ & Ei & Ex & Ey).
  destruct (v_kept _ _ _ _ _ _ V _ _ _ H1 H3) as (a1 & a2 & _). destruct (v_kept _ _ _ _ _ _ V _ _ _ H2 H4) as (b1 & b2 & _).
  apply (I_tick _ I1) in H1 as [_ T1]. apply (I_tick _ I1) in H2 as [_ T2]. apply (I_tick _ I0) in H3 as [_ T3]. apply (I_tick _ I0) in H4 as [_ T4].
  unfold inside_x, inside_y.
  rewrite (to_index _ _ _ _ T1), (to_index _ _ _ _ T2), (to_index _ _ _ _ T3), (to_index _ _ _ _ T4), Ei, Ex, Ey, a1, a2, b1, b2. auto.
Qed.

Lemma paid_fits s s' u k p x y : s_pools s !! k = Some p -> Inv s -> bals_ok s -> bals_ok s' ->
  ledger s s' (both (at_ u (pk_token_x k) x) (at_ u (pk_token_y k) y)) ->
  bal s u (pk_token_x k) + x < M256 /\ bal s u (pk_token_y k) + y < M256 /\ x < M256 /\ y < M256.
Proof.
  intros Hp I B B' Le. pose proof (po_tokens _ _ (I_pool _ I _ _ Hp)) as ND.
  pose proof (Le u (pk_token_x k)) as E1. pose proof (Le u (pk_token_y k)) as E2. unfold both, at_ in E1, E2. rewrite !Z.eqb_refl in E1, E2. cbn [andb] in E1, E2.
  destruct (Z.eqb_spec (pk_token_x k) (pk_token_y k)); [lia|]. destruct (Z.eqb_spec (pk_token_y k) (pk_token_x k)); [lia|].
  pose proof (u256_M _ (B u (pk_token_x k))). pose proof (u256_M _ (B u (pk_token_y k))).
  pose proof (u256_M _ (B' u (pk_token_x k))). pose proof (u256_M _ (B' u (pk_token_y k))). lia.
Qed.

Lemma claim_transfer e s1 s0 s1' i x y pos p1 p0 : Inv s1 -> Inv s0 -> gross_bound s0 -> bals_ok s1 -> bals_ok s1' ->
  s_positions s1 !! (e_caller e, i) = Some pos -> view (e_caller e) (pos_pool_key pos) s1 s0 p1 p0 ->
  claim_fee e s1 i = Ok (s1', (x, y)) -> exists s0', claim_fee e s0 i = Ok (s0', (x, y)).
Proof.
  intros I1 I0 G0 B1 B1' Hpos V E. destruct (claim_summary _ _ _ _ _ _ I1 E) as (pos' & p & tl & tu & mx & C).
  pose proof (cl_pos _ _ _ _ _ _ _ _ _ _ _ C) as Hpos'. rewrite Hpos in Hpos'. injection Hpos' as <-.
  pose proof (cl_pool _ _ _ _ _ _ _ _ _ _ _ C) as Hp. rewrite (v_pool1 _ _ _ _ _ _ V) in Hp. injection Hp as <-.
  assert (Hpos0 : s_positions s0 !! (e_caller e, i) = Some pos) by (destruct (v_user _ _ _ _ _ _ V) as (_ & _ & <-); exact Hpos).
  destruct (pos_ticks _ _ _ _ I0 Hpos0) as (p' & tl0 & tu0 & Hp' & H1 & H2 & _). rewrite (v_pool0 _ _ _ _ _ _ V) in Hp'. injection Hp' as <-.
  destruct (view_inside _ _ _ _ _ _ _ _ _ _ _ _ I1 I0 V (cl_tl _ _ _ _ _ _ _ _ _ _ _ C) (cl_tu _ _ _ _ _ _ _ _ _ _ _ C) H1 H2) as [EX EY].
  destruct (paid_fits _ _ _ _ _ _ _ (v_pool1 _ _ _ _ _ _ V) I1 B1 B1' (cl_ledger _ _ _ _ _ _ _ _ _ _ _ C)) as (F1 & F2 & _).
  pose proof (cl_fee_x _ _ _ _ _ _ _ _ _ _ _ C) as Fx. pose proof (cl_fee_y _ _ _ _ _ _ _ _ _ _ _ C) as Fy. rewrite <- EX in Fx. rewrite <- EY in Fy.
  rewrite <- (view_bal _ _ _ _ _ _ _ V) in F1. rewrite <- (view_bal _ _ _ _ _ _ _ V) in F2.
  exact (claim_fee_ok e s0 i pos p0 tl0 tu0 x y I0 G0 Hpos0 (v_pool0 _ _ _ _ _ _ V) H1 H2 Fx Fy F1 F2).
Qed.

Lemma remove_transfer e s1 s0 s1' i x y pos p1 p0 : Inv s1 -> Inv s0 -> gross_bound s0 -> bals_ok s1 -> bals_ok s1' ->
  s_positions s1 !! (e_caller e, i) = Some pos -> view (e_caller e) (pos_pool_key pos) s1 s0 p1 p0 ->
  (in_range (pos_lower pos) (pos_upper pos) (p_current_tick_index p0) = true -> pos_liquidity pos <= p_liquidity p0) ->
  remove_position e s1 i = Ok (s1', (x, y)) -> exists s0', remove_position e s0 i = Ok (s0', (x, y)).
Proof.
  intros I1 I0 G0 B1 B1' Hpos V HL E. destruct (remove_summary _ _ _ _ _ _ I1 E) as (pos' & p & tl & tu & dx & dy & ox & oy & C).
  pose proof (rm_pos _ _ _ _ _ _ _ _ _ _ _ _ _ _ C) as Hpos'. rewrite Hpos in Hpos'. injection Hpos' as <-.
  pose proof (rm_pool _ _ _ _ _ _ _ _ _ _ _ _ _ _ C) as Hp. rewrite (v_pool1 _ _ _ _ _ _ V) in Hp. injection Hp as <-.
  assert (Hpos0 : s_positions s0 !! (e_caller e, i) = Some pos) by (destruct (v_user _ _ _ _ _ _ V) as (_ & _ & <-); exact Hpos).
  destruct (pos_ticks _ _ _ _ I0 Hpos0) as (p' & tl0 & tu0 & Hp' & H1 & H2 & _). rewrite (v_pool0 _ _ _ _ _ _ V) in Hp'. injection Hp' as <-.
  destruct (view_inside _ _ _ _ _ _ _ _ _ _ _ _ I1 I0 V (rm_tl _ _ _ _ _ _ _ _ _ _ _ _ _ _ C) (rm_tu _ _ _ _ _ _ _ _ _ _ _ _ _ _ C) H1 H2) as [EX EY].
  destruct (paid_fits _ _ _ _ _ _ _ (v_pool1 _ _ _ _ _ _ V) I1 B1 B1' (rm_ledger _ _ _ _ _ _ _ _ _ _ _ _ _ _ C)) as (F1 & F2 & F3 & F4).
  destruct (v_same _ _ _ _ _ _ V) as (Ep & Ei & _).
  pose proof (rm_amounts _ _ _ _ _ _ _ _ _ _ _ _ _ _ C) as AD. rewrite Ep, Ei in AD.
  pose proof (rm_x _ _ _ _ _ _ _ _ _ _ _ _ _ _ C) as Ex. pose proof (rm_y _ _ _ _ _ _ _ _ _ _ _ _ _ _ C) as Ey. subst x y.
  assert (D : 0 <= dx /\ 0 <= dy).
  { pose proof (I_pos _ I0 _ _ _ Hpos0) as SO. pose proof (so_liq _ _ SO).
    apply (I_tick _ I0) in H1 as [_ T1]. apply (I_tick _ I0) in H2 as [_ T2].
    refine (amount_delta_nonneg _ _ _ _ _ _ _ _ _ (proj1 (to_okt _ _ _ _ T1)) (proj1 (to_okt _ _ _ _ T2)) (po_range _ _ (I_pool _ I0 _ _ (v_pool0 _ _ _ _ _ _ V))) _ AD).
    apply u256_I; lia. }
  pose proof (rm_fee_x _ _ _ _ _ _ _ _ _ _ _ _ _ _ C) as Fx. pose proof (rm_fee_y _ _ _ _ _ _ _ _ _ _ _ _ _ _ C) as Fy. rewrite <- EX in Fx. rewrite <- EY in Fy.
  rewrite <- (view_bal _ _ _ _ _ _ _ V) in F1. rewrite <- (view_bal _ _ _ _ _ _ _ V) in F2.
  exact (remove_position_ok e s0 i pos p0 tl0 tu0 ox oy dx dy I0 G0 Hpos0 (v_pool0 _ _ _ _ _ _ V) H1 H2 Fx Fy AD (proj1 D) (proj2 D) HL F1 F2 F3 F4).
Qed.

Lemma outs_old s ts k p j : outs s ts k p j = (old_x s k p j, old_y s k p j, snd (outs s ts k p j)).
Proof. unfold outs, old_x, old_y. destruct (s_ticks s !! (k, j)); [reflexivity|]. now destruct (j <=? _). Qed.

Lemma create_transfer e s1 s0 k lo up L sl su s1' pos p1 p0 : Inv s1 -> Inv s0 -> bals_ok s0 -> bals_ok s1 -> u256 L ->
  view (e_caller e) k s1 s0 p1 p0 -> (forall j, outs s1 (e_timestamp e) k p1 j = outs s0 (e_timestamp e) k p0 j) ->
  (forall mx, calculate_max_liquidity_per_tick (pk_spacing k) = Ok mx -> gross_at s0 k lo + L < mx /\ gross_at s0 k up + L < mx) ->
  (in_range lo up (p_current_tick_index p0) = true -> p_liquidity p0 + L < M256) ->
  create_position e s1 k lo up L sl su = Ok (s1', pos) -> exists s0', create_position e s0 k lo up L sl su = Ok (s0', pos).
Proof.
  intros I1 I0 B0 B1 HL V HO HG HLq E. pose proof (v_pool1 _ _ _ _ _ _ V) as Hp1. pose proof (v_pool0 _ _ _ _ _ _ V) as Hp0.
  destruct (v_same _ _ _ _ _ _ V) as (Ep & Ei & Ex & Ey).
  destruct (create_summary _ _ _ _ _ _ _ _ _ _ I1 HL E) as (p & x & y & mx & C).
  pose proof (cr_pool _ _ _ _ _ _ _ _ _ _ _ _ _ _ C) as Hp. rewrite Hp1 in Hp. injection Hp as <-.
  assert (S : succeeds (create_position e s0 k lo up L sl su)).
  { apply (create_iff_inv s0 e k p0 lo up L sl su HL I0 B0); [apply pools_get_Ok, Hp0|].
    assert (A1 : position_admitted s1 (e_caller e) k p1 lo up L sl su).
    { apply (create_iff_inv s1 e k p1 lo up L sl su HL I1 B1); [apply pools_get_Ok, Hp1|]. eexists; exact E. }
    destruct A1 as [a1 a2 a3 a4 a5 a6 a7 a8].
    destruct (HG _ (cr_max _ _ _ _ _ _ _ _ _ _ _ _ _ _ C)) as [G1 G2].
    rewrite (max_per_tick_eq _ _ (cr_max _ _ _ _ _ _ _ _ _ _ _ _ _ _ C)) in G1, G2.
    split.
    - constructor; auto; [now rewrite <- Ep|]. intros pl pu Hl Hu. rewrite <- Ep, !(view_bal _ _ _ _ _ _ _ V). exact (a8 pl pu Hl Hu).
    - intros R. apply HLq. unfold in_range. destruct (Z.leb_spec lo (p_current_tick_index p0)), (Z.ltb_spec (p_current_tick_index p0) up); cbn; lia. }
  destruct S as [[s0' pos0] E0]. exists s0'. rewrite E0.
  destruct (create_summary _ _ _ _ _ _ _ _ _ _ I0 HL E0) as (p & x0 & y0 & mx0 & C0).
  pose proof (cr_pool _ _ _ _ _ _ _ _ _ _ _ _ _ _ C0) as Hp. rewrite Hp0 in Hp. injection Hp as <-.
  assert (OO : forall j, old_x s1 k p1 j = old_x s0 k p0 j /\ old_y s1 k p1 j = old_y s0 k p0 j).
  { intros j. specialize (HO j). rewrite (outs_old s1), (outs_old s0) in HO. split; congruence. }
  rewrite (cr_pos _ _ _ _ _ _ _ _ _ _ _ _ _ _ C0), (cr_pos _ _ _ _ _ _ _ _ _ _ _ _ _ _ C), Ei, Ex, Ey.
  destruct (OO lo) as [-> ->]. destruct (OO up) as [-> ->]. reflexivity.
Qed.

(** ** The three calls alike *)
Definition shape (e : env) (o : op) (s : state) (r : reply) (k : pool_key) (p : pool) (lo up d x y : Z) : Prop :=
  match o with
  | OpCreatePosition k' lo' up' L _ _ => k' = k /\ lo' = lo /\ up' = up /\ L = d /\
      calculate_amount_delta (p_current_tick_index p) (p_sqrt_price p) L true up lo = Ok (- x, - y, in_range lo up (p_current_tick_index p))
  | OpRemovePosition i | OpClaimFee i => r = RAmounts x y /\
      exists pos, s_positions s !! (e_caller e, i) = Some pos /\ pos_pool_key pos = k /\ pos_lower pos = lo /\ pos_upper pos = up /\
        d = if closing o then - pos_liquidity pos else 0
  | _ => False
  end.
Record does (e : env) (o : op) (s s' : state) (r : reply) (k : pool_key) (p : pool) (lo up d x y : Z) : Prop := {
  do_run : run_op e s o = Ok s';
  do_answer : answer s (Call e o) = Ok r;
  do_shape : shape e o s r k p lo up d x y;
  do_acts : acts e s s' k p lo up d x y;
  do_gross : forall j, gross_at s' k j = gross_at s k j + (if (lo =? j) || (up =? j) then d else 0);
  do_fits : in_range lo up (p_current_tick_index p) = true -> 0 <= p_liquidity p + d < M256;
  do_room : opening o = true -> forall mx, calculate_max_liquidity_per_tick (pk_spacing k) = Ok mx ->
    gross_at s k lo + d < mx /\ gross_at s k up + d < mx;
  do_sign : (opening o = true -> 0 < d) /\ (closing o = true -> d < 0) /\ (claiming o = true -> d = 0);
  do_grows : closing o = false -> grows (e_timestamp e) k p s s';
  do_shrinks : opening o = false -> shrinks s s';
}.

Definition liquidity_call (o : op) : Prop := opening o = true \/ closing o = true \/ claiming o = true.

Lemma does_create e s k lo up L sl su s' pos p x y mx : Inv s -> Inv s' -> create_position e s k lo up L sl su = Ok (s', pos) ->
  created e s s' k lo up L sl su pos p x y mx -> acts e s s' k p lo up L (- x) (- y) -> grows (e_timestamp e) k p s s' ->
  does e (OpCreatePosition k lo up L sl su) s s' (RPosition pos) k p lo up L (- x) (- y).
Proof.
  intros I I' E C A G. pose proof (cr_liq _ _ _ _ _ _ _ _ _ _ _ _ _ _ C) as HL.
  pose proof (u256_M _ (po_liq _ _ (I_pool _ I _ _ (cr_pool _ _ _ _ _ _ _ _ _ _ _ _ _ _ C)))) as HP.
  constructor; auto.
  - cbn [run_op]. rewrite E. reflexivity.
  - cbn [answer]. rewrite E. reflexivity.
  - cbn [shape]. rewrite !Z.opp_involutive. repeat (split; [reflexivity|]). apply C.
  - intros j. unfold gross_at. rewrite (cr_positions _ _ _ _ _ _ _ _ _ _ _ _ _ _ C), msum_insert by apply (cr_fresh _ _ _ _ _ _ _ _ _ _ _ _ _ _ C).
    unfold gross_of at 1. rewrite (cr_pos _ _ _ _ _ _ _ _ _ _ _ _ _ _ C). cbn [pos_pool_key pos_lower pos_upper pos_liquidity].
    rewrite bool_decide_true by reflexivity. cbn [andb]. lia.
  - intros R. pose proof (cr_fits _ _ _ _ _ _ _ _ _ _ _ _ _ _ C R). lia.
  - intros _ mx' Hmx. rewrite (cr_max _ _ _ _ _ _ _ _ _ _ _ _ _ _ C) in Hmx. injection Hmx as <-. split; apply C.
  - cbn. split; [lia|split; discriminate].
  - discriminate.
Qed.

Lemma does_remove e s i s' x y pos p tl tu dx dy ox oy : Inv s -> Inv s' -> remove_position e s i = Ok (s', (x, y)) ->
  removed e s s' i x y pos p tl tu dx dy ox oy ->
  acts e s s' (pos_pool_key pos) p (pos_lower pos) (pos_upper pos) (- pos_liquidity pos) x y -> shrinks s s' ->
  does e (OpRemovePosition i) s s' (RAmounts x y) (pos_pool_key pos) p (pos_lower pos) (pos_upper pos) (- pos_liquidity pos) x y.
Proof.
  intros I I' E C A G. pose proof (so_liq _ _ (I_pos _ I _ _ _ (rm_pos _ _ _ _ _ _ _ _ _ _ _ _ _ _ C))) as HL.
  pose proof (u256_M _ (po_liq _ _ (I_pool _ I _ _ (rm_pool _ _ _ _ _ _ _ _ _ _ _ _ _ _ C)))) as HP.
  constructor; auto.
  - cbn [run_op]. rewrite E. reflexivity.
  - cbn [answer]. rewrite E. reflexivity.
  - split; [reflexivity|]. exists pos. split; [apply C|auto].
  - intros j. unfold gross_at. rewrite (rm_msum _ _ _ _ _ _ _ _ _ _ _ _ _ _ C). unfold gross_of at 2.
    rewrite bool_decide_true by reflexivity. cbn [andb]. destruct (_ || _); lia.
  - intros R. pose proof (rm_fits _ _ _ _ _ _ _ _ _ _ _ _ _ _ C R). lia.
  - discriminate.
  - cbn. split; [discriminate|split; [lia|discriminate]].
  - discriminate.
Qed.

Lemma does_claim e s i s' x y pos p tl tu mx : Inv s -> Inv s' -> claim_fee e s i = Ok (s', (x, y)) ->
  claimed e s s' i x y pos p tl tu mx ->
  acts e s s' (pos_pool_key pos) p (pos_lower pos) (pos_upper pos) 0 x y -> shrinks s s' ->
  grows (e_timestamp e) (pos_pool_key pos) p s s' ->
  does e (OpClaimFee i) s s' (RAmounts x y) (pos_pool_key pos) p (pos_lower pos) (pos_upper pos) 0 x y.
Proof.
  intros I I' E C A G G'.
  pose proof (u256_M _ (po_liq _ _ (I_pool _ I _ _ (cl_pool _ _ _ _ _ _ _ _ _ _ _ C)))) as HP.
  constructor; auto.
  - cbn [run_op]. rewrite E. reflexivity.
  - cbn [answer]. rewrite E. reflexivity.
  - split; [reflexivity|]. exists pos. split; [apply C|auto].
  - intros j. unfold gross_at. rewrite (cl_positions _ _ _ _ _ _ _ _ _ _ _ C), (msum_update _ _ _ pos) by apply C.
    unfold gross_of at 2 3. cbn [pos_pool_key pos_lower pos_upper pos_liquidity]. destruct (_ || _); lia.
  - intros _. lia.
  - discriminate.
  - cbn. split; [discriminate|split; [discriminate|auto]].
Qed.

Lemma does_it e o s s' : Inv s -> Inv s' -> op_wf o -> liquidity_call o -> run_op e s o = Ok s' ->
  exists r k p lo up d x y, does e o s s' r k p lo up d x y.
Proof.
  intros I I' W Q E. destruct o; try (destruct Q as [Q|[Q|Q]]; discriminate Q); cbn [run_op] in E; apply drop_result_Ok in E as [v E].
  - destruct (create_acts _ _ _ _ _ _ _ _ _ _ I ltac:(apply W) E) as (p & x & y & mx & C & A & G).
    eauto 20 using does_create.
  - destruct v as [x y]. destruct (remove_acts _ _ _ _ _ _ I E) as (pos & p & tl & tu & dx & dy & ox & oy & C & A & G & _).
    eauto 20 using does_remove.
  - destruct v as [x y]. destruct (claim_acts _ _ _ _ _ _ I I' E) as (pos & p & tl & tu & mx & C & A & G & G' & _).
    eauto 20 using does_claim.
Qed.

Lemma told_amounts x y (r : res (state * (Z * Z))) s' : told (fun a => RAmounts a.1 a.2) r = Ok (RAmounts x y) ->
  drop_result r = Ok s' -> r = Ok (s', (x, y)).
Proof.
  intros H1 H2. destruct r as [[t [a b]]| | |]; cbn in H1, H2; try discriminate H1. injection H1 as -> ->. injection H2 as ->. reflexivity.
Qed.

Lemma transfer e o s1 s1' s0 r k p1 p0 lo up d x y : Inv s1 -> Inv s1' -> Inv s0 -> gross_bound s0 ->
  bals_ok s0 -> bals_ok s1 -> bals_ok s1' -> op_wf o -> does e o s1 s1' r k p1 lo up d x y -> view (e_caller e) k s1 s0 p1 p0 ->
  (opening o = true -> (forall j, outs s1 (e_timestamp e) k p1 j = outs s0 (e_timestamp e) k p0 j) /\
     forall mx, calculate_max_liquidity_per_tick (pk_spacing k) = Ok mx -> gross_at s0 k lo + d < mx /\ gross_at s0 k up + d < mx) ->
  (in_range lo up (p_current_tick_index p0) = true -> 0 <= p_liquidity p0 + d < M256) ->
  exists s0', run_op e s0 o = Ok s0' /\ (Inv s0' -> does e o s0 s0' r k p0 lo up d x y /\ same_holdings (e_caller e) s1' s0').
Proof.
  intros I1 I1' I0 G0 B0 B1 B1' W D V HO HF.
  pose proof (do_run _ _ _ _ _ _ _ _ _ _ _ _ D) as ER. pose proof (do_answer _ _ _ _ _ _ _ _ _ _ _ _ D) as EA.
  pose proof (do_shape _ _ _ _ _ _ _ _ _ _ _ _ D) as SH. destruct (v_user _ _ _ _ _ _ V) as (_ & VL & VP).
  destruct (v_same _ _ _ _ _ _ V) as (Ep & Ei & Ex & Ey).
  destruct o; cbn [shape] in SH; try contradiction.
  - destruct SH as (-> & -> & -> & -> & AD). cbn [run_op] in ER. apply drop_result_Ok in ER as [pos E].
    cbn [answer] in EA. rewrite E in EA. injection EA as <-. destruct (HO eq_refl) as [HO1 HO2].
    assert (HL : u256 d) by apply W.
    destruct (create_transfer e s1 s0 k lo up d _ _ s1' pos p1 p0 I1 I0 B0 B1 HL V HO1 HO2 (fun R => proj2 (HF R)) E) as [s0' E0].
    exists s0'. cbn [run_op]. rewrite E0. split; [reflexivity|]. intros I0'.
    destruct (create_acts _ _ _ _ _ _ _ _ _ _ I0 HL E0) as (p & x0 & y0 & mx & C & A & G).
    pose proof (cr_pool _ _ _ _ _ _ _ _ _ _ _ _ _ _ C) as Hp. rewrite (v_pool0 _ _ _ _ _ _ V) in Hp. injection Hp as <-.
    pose proof (cr_amounts _ _ _ _ _ _ _ _ _ _ _ _ _ _ C) as AD0. rewrite Ep, Ei in AD. rewrite AD in AD0. injection AD0 as EX EY.
    assert (x = - x0) as -> by lia. assert (y = - y0) as -> by lia.
    split; [eapply does_create; eauto|].
    destruct (create_summary _ _ _ _ _ _ _ _ _ _ I1 HL E) as (q & ? & ? & ? & C1).
    split.
    + rewrite (create_length _ _ _ _ _ _ _ _ _ _ E), (create_length _ _ _ _ _ _ _ _ _ _ E0), !lookup_insert. unfold positions_get_length. now rewrite VL.
    + intros n. rewrite (cr_positions _ _ _ _ _ _ _ _ _ _ _ _ _ _ C), (cr_positions _ _ _ _ _ _ _ _ _ _ _ _ _ _ C1).
      unfold positions_get_length. rewrite VL. destruct (decide ((e_caller e, default 0 (s_positions_length s0 !! e_caller e)) = (e_caller e, n))) as [Q|Q].
      * rewrite <- Q. now rewrite !lookup_insert.
      * rewrite !lookup_insert_ne by exact Q. apply VP.
  - destruct SH as (-> & pos & Hpos & <- & <- & <- & ->). cbn [run_op answer] in ER, EA.
    pose proof (told_amounts _ _ _ _ EA ER) as E. cbn [closing] in *.
    destruct (remove_transfer e s1 s0 s1' _ x y pos p1 p0 I1 I0 G0 B1 B1' Hpos V ltac:(intros R; apply HF in R; lia) E) as [s0' E0].
    exists s0'. cbn [run_op]. rewrite E0. split; [reflexivity|]. intros I0'.
    destruct (remove_acts _ _ _ _ _ _ I0 E0) as (pos0 & p & tl & tu & dx & dy & ox & oy & C & A & G & LL).
    pose proof (rm_pos _ _ _ _ _ _ _ _ _ _ _ _ _ _ C) as Hpos0. rewrite <- VP, Hpos in Hpos0. injection Hpos0 as <-.
    pose proof (rm_pool _ _ _ _ _ _ _ _ _ _ _ _ _ _ C) as Hp. rewrite (v_pool0 _ _ _ _ _ _ V) in Hp. injection Hp as <-.
    split; [eapply does_remove; eauto|].
    destruct (remove_acts _ _ _ _ _ _ I1 E) as (pos1 & q & ? & ? & ? & ? & ? & ? & C1 & _ & _ & LL1).
    assert (EL : last_index s1 (e_caller e) = last_index s0 (e_caller e)) by (unfold last_index, positions_get_length; now rewrite VL).
    split; [rewrite LL, LL1, !lookup_insert; now rewrite EL|].
    intros n. destruct (rm_positions _ _ _ _ _ _ _ _ _ _ _ _ _ _ C) as (lp & HLP & ->).
    destruct (rm_positions _ _ _ _ _ _ _ _ _ _ _ _ _ _ C1) as (lp1 & HLP1 & ->). rewrite EL in HLP1. unfold removed_positions.
    destruct lp as [q0|], lp1 as [q1|]; [|lia|lia|].
    + destruct HLP as [_ H1], HLP1 as [_ H2]. rewrite VP, H1 in H2. injection H2 as <-. rewrite EL.
      destruct (decide ((e_caller e, index) = (e_caller e, n))) as [Q|Q]; [rewrite Q; now rewrite !lookup_insert|]. rewrite !lookup_insert_ne by exact Q.
      destruct (decide ((e_caller e, last_index s0 (e_caller e)) = (e_caller e, n))) as [Q'|Q']; [rewrite Q'; now rewrite !lookup_delete|].
      rewrite !lookup_delete_ne by exact Q'. apply VP.
    + destruct (decide ((e_caller e, index) = (e_caller e, n))) as [Q|Q]; [rewrite Q; now rewrite !lookup_delete|].
      rewrite !lookup_delete_ne by exact Q. apply VP.
  - destruct SH as (-> & pos & Hpos & <- & <- & <- & ->). cbn [run_op answer] in ER, EA.
    pose proof (told_amounts _ _ _ _ EA ER) as E. cbn [closing] in *.
    destruct (claim_transfer e s1 s0 s1' _ x y pos p1 p0 I1 I0 G0 B1 B1' Hpos V E) as [s0' E0].
    exists s0'. cbn [run_op]. rewrite E0. split; [reflexivity|]. intros I0'.
    destruct (claim_acts _ _ _ _ _ _ I0 I0' E0) as (pos0 & p & tl & tu & mx & C & A & G & G' & LL).
    pose proof (cl_pos _ _ _ _ _ _ _ _ _ _ _ C) as Hpos0. rewrite <- VP, Hpos in Hpos0. injection Hpos0 as <-.
    pose proof (cl_pool _ _ _ _ _ _ _ _ _ _ _ C) as Hp. rewrite (v_pool0 _ _ _ _ _ _ V) in Hp. injection Hp as <-.
    split; [eapply does_claim; eauto|].
    destruct (claim_acts _ _ _ _ _ _ I1 I1' E) as (pos1 & q & tl1 & tu1 & mx1 & C1 & _ & _ & _ & LL1).
    pose proof (cl_pos _ _ _ _ _ _ _ _ _ _ _ C1) as Hpos1. rewrite Hpos in Hpos1. injection Hpos1 as <-.
    pose proof (cl_pool _ _ _ _ _ _ _ _ _ _ _ C1) as Hp. rewrite (v_pool1 _ _ _ _ _ _ V) in Hp. injection Hp as <-.
    split; [rewrite LL, LL1; apply VL|].
    destruct (view_inside _ _ _ _ _ _ _ _ _ _ _ _ I1 I0 V (cl_tl _ _ _ _ _ _ _ _ _ _ _ C1) (cl_tu _ _ _ _ _ _ _ _ _ _ _ C1)
      (cl_tl _ _ _ _ _ _ _ _ _ _ _ C) (cl_tu _ _ _ _ _ _ _ _ _ _ _ C)) as [EX EY].
    intros n. rewrite (cl_positions _ _ _ _ _ _ _ _ _ _ _ C), (cl_positions _ _ _ _ _ _ _ _ _ _ _ C1), EX, EY.
    destruct (decide ((e_caller e, index) = (e_caller e, n))) as [Q|Q]; [rewrite Q; now rewrite !lookup_insert|].
    rewrite !lookup_insert_ne by exact Q. apply VP.
Qed.

(** ** Two calls of different users *)
Lemma answered e o s s' r : answer s (Call e o) = Ok r -> liquidity_call o -> run_op e s o = Ok s' -> exec_event s (Call e o) = s'.
Proof. intros _ _ E. cbn [exec_event]. unfold exec_op. now rewrite E. Qed.

Lemma answer_run e o s r : liquidity_call o -> answer s (Call e o) = Ok r -> run_op e s o = Ok (exec_event s (Call e o)).
Proof.
  intros Q. cbn [exec_event]. unfold exec_op. destruct o; try (destruct Q as [Q|[Q|Q]]; discriminate Q); cbn [answer run_op]; unfold told.
  - destruct (create_position _ _ _ _ _ _ _ _) as [[? ?]| | |]; cbn; intros H; first [reflexivity|discriminate H].
  - destruct (remove_position _ _ _) as [[? [? ?]]| | |]; cbn; intros H; first [reflexivity|discriminate H].
  - destruct (claim_fee _ _ _) as [[? [? ?]]| | |]; cbn; intros H; first [reflexivity|discriminate H].
Qed.

Lemma amounts_step e o s s' v : Inv s -> Inv s' -> op_wf o -> liquidity_call o -> run_op e s o = Ok s' ->
  get_user_position_amount s' v <= get_user_position_amount s v + 1.
Proof.
  intros I I' W Q E. destruct (does_it e o s s' I I' W Q E) as (r & k & p & lo & up & d & x & y & D).
  destruct (Z.eq_dec v (e_caller e)) as [->|N].
  2: { destruct (a_others _ _ _ _ _ _ _ _ _ _ (do_acts _ _ _ _ _ _ _ _ _ _ _ _ D) v N) as (_ & EL & _).
       unfold get_user_position_amount, positions_get_length. rewrite EL. lia. }
  pose proof (proj1 (I_dense _ I (e_caller e))) as H0.
  unfold get_user_position_amount. set (n := positions_get_length s (e_caller e)) in *.
  destruct o; try (destruct Q as [Q|[Q|Q]]; discriminate Q); cbn [run_op] in E; apply drop_result_Ok in E as [w E].
  - unfold positions_get_length. rewrite (create_length _ _ _ _ _ _ _ _ _ _ E), lookup_insert. cbn. fold n. apply Z.mod_le; [lia|reflexivity].
  - destruct w as [a b]. destruct (remove_acts _ _ _ _ _ _ I E) as (pos & ? & ? & ? & ? & ? & ? & ? & C & _ & _ & LL).
    unfold positions_get_length. rewrite LL, lookup_insert. cbn. unfold last_index. fold n.
    pose proof (rm_pos _ _ _ _ _ _ _ _ _ _ _ _ _ _ C) as Hp. destruct (I_dense _ I (e_caller e)) as [HM HD].
    pose proof (proj1 (HD _) (ex_intro _ _ Hp)) as HL. fold n in HL, HM.
    rewrite Z.mod_small; lia.
  - destruct w as [a b]. destruct (claim_acts _ _ _ _ _ _ I I' E) as (pos & ? & ? & ? & ? & _ & _ & _ & _ & LL).
    unfold positions_get_length. rewrite LL. fold (positions_get_length s (e_caller e)). fold n. lia.
Qed.

Definition reach (s : state) : Prop := exists evs, history room evs s.
Definition few (n : Z) (s : state) : Prop := forall v, get_user_position_amount s v < 2 ^ 32 - 1 - n.
Lemma reach_step s e o s' : reach s -> few 0 s -> event_wf (Call e o) -> run_op e s o = Ok s' -> reach s'.
Proof.
  intros [evs H] F W E. exists (evs ++ [Call e o]).
  replace s' with (exec_event s (Call e o)) by (cbn [exec_event]; unfold exec_op; now rewrite E).
  apply history_step; [exact H|exact W|]. intros v. specialize (F v). lia.
Qed.
Lemma reach_good s : reach s -> Inv s /\ gross_bound s /\ bals_strict s /\ bals_ok s.
Proof.
  intros [evs H]. destruct (gross_bound_history room evs s (fun _ _ h => h) H) as [I G].
  pose proof (bals_strict_history room evs s (fun _ _ h => h) H) as B. split; [exact I|]. split; [exact G|]. split; [exact B|]. apply B.
Qed.
Lemma few_weaken n m s : m <= n -> few n s -> few m s.
Proof. intros H F v. specialize (F v). lia. Qed.
Lemma few_step n e o s s' : Inv s -> Inv s' -> op_wf o -> liquidity_call o -> run_op e s o = Ok s' -> few (n + 1) s -> few n s'.
Proof. intros I I' W Q E F v. pose proof (amounts_step e o s s' v I I' W Q E). specialize (F v). lia. Qed.

Lemma sim_refl_at s w : Inv s -> sim true w s s.
Proof.
  intros I. constructor; auto.
  - intros k. destruct (s_pools s !! k) as [p|] eqn:Ep; cbn; auto. apply psame_spec. split; [|apply u256_M, (I_pool _ I _ _ Ep)].
    repeat (split; [reflexivity|]); reflexivity.
  - intros [k i]. destruct (s_ticks s !! (k, i)) as [t|] eqn:Et; cbn; auto. apply tsame_spec. split; [|apply (I_tick _ I _ _ _ Et)].
    repeat (split; [reflexivity|]); reflexivity.
  - intros [v i] _. destruct (s_positions s !! (v, i)) as [q|] eqn:Eq; cbn; auto.
    split; [reflexivity|]. pose proof (so_liq _ _ (I_pos _ I _ _ _ Eq)). unfold posok. lia.
Qed.

Lemma shape_changes e o s r k p lo up d x y : shape e o s r k p lo up d x y -> changes s (Call e o) = [UserPart (e_caller e); PoolPart k] /\
  concerns s (Call e o) = [UserPart (e_caller e); PoolPart k].
Proof.
  destruct o; cbn [shape]; try contradiction.
  - intros (-> & _). split; reflexivity.
  - intros (_ & pos & H & <- & _). cbn. unfold pool_of_position. rewrite H. split; reflexivity.
  - intros (_ & pos & H & <- & _). cbn. unfold pool_of_position. rewrite H. split; reflexivity.
Qed.

Definition alike (o o' : op) : Prop := (closing o = false /\ closing o' = false) \/ (opening o = false /\ opening o' = false).

Lemma with_liq_same p lo up d ts : p_sqrt_price (with_liq p lo up d ts) = p_sqrt_price p /\ p_current_tick_index (with_liq p lo up d ts) = p_current_tick_index p /\
  p_fee_growth_global_x (with_liq p lo up d ts) = p_fee_growth_global_x p /\ p_fee_growth_global_y (with_liq p lo up d ts) = p_fee_growth_global_y p.
Proof. unfold with_liq. destruct p. cbn. auto. Qed.
Lemma with_liq_liq p lo up d ts : p_liquidity (with_liq p lo up d ts) = p_liquidity p + (if in_range lo up (p_current_tick_index p) then d else 0).
Proof. unfold with_liq. destruct p. cbn. destruct (in_range _ _ _); lia. Qed.

Lemma does_sign e o s s' r k p lo up d x y : liquidity_call o -> does e o s s' r k p lo up d x y ->
  (closing o = false -> 0 <= d) /\ (opening o = false -> d <= 0).
Proof.
  intros Q D. destruct (do_sign _ _ _ _ _ _ _ _ _ _ _ _ D) as (H1 & H2 & H3).
  destruct Q as [Q|[Q|Q]]; [specialize (H1 Q)|specialize (H2 Q)|specialize (H3 Q)];
    destruct o; try discriminate Q; cbn in *; split; intros; try discriminate; lia.
Qed.

Lemma does_view e o s s' r k p lo up d x y v : v <> e_caller e -> does e o s s' r k p lo up d x y -> (closing o = false \/ opening o = false) ->
  view v k s' s (with_liq p lo up d (e_timestamp e)) p /\ view v k s s' p (with_liq p lo up d (e_timestamp e)).
Proof.
  intros N D C. pose proof (do_acts _ _ _ _ _ _ _ _ _ _ _ _ D) as A.
  assert (KK : forall j t t', s_ticks s !! (k, j) = Some t -> s_ticks s' !! (k, j) = Some t' -> kept t t').
  { intros j t t' H1 H2. destruct C as [C|C].
    - eapply (outs_kept s s' (e_timestamp e) k p j); [symmetry; apply (do_grows _ _ _ _ _ _ _ _ _ _ _ _ D C)|exact H1|exact H2].
    - destruct (do_shrinks _ _ _ _ _ _ _ _ _ _ _ _ D C _ _ H2) as (t0 & E & K). rewrite H1 in E. injection E as <-. exact K. }
  destruct (with_liq_same p lo up d (e_timestamp e)) as (W1 & W2 & W3 & W4).
  destruct (a_others _ _ _ _ _ _ _ _ _ _ A v N) as (P1 & P2 & P3).
  assert (HP : s_pools s' !! k = Some (with_liq p lo up d (e_timestamp e))) by (rewrite (a_pools _ _ _ _ _ _ _ _ _ _ A); apply lookup_insert).
  split; constructor; auto; try apply (a_pool _ _ _ _ _ _ _ _ _ _ A); try (apply (a_others _ _ _ _ _ _ _ _ _ _ A v N)).
  - split; [now symmetry|]. split; [now symmetry|]. intros n. now symmetry.
  - intros j t1 t0 H1 H0. destruct (KK j t0 t1 H0 H1) as (a1 & a2 & a3). split; [now symmetry|]. split; now symmetry.
Qed.

Lemma pair_order s e o e' o' sa sab : reach s -> few 2 s -> event_wf (Call e o) -> event_wf (Call e' o') ->
  e_caller e <> e_caller e' -> e_timestamp e' = e_timestamp e -> liquidity_call o -> liquidity_call o' -> alike o o' ->
  run_op e s o = Ok sa -> run_op e' sa o' = Ok sab ->
  exists sb sba, run_op e' s o' = Ok sb /\ run_op e sb o = Ok sba /\ reach sb /\ reach sba /\ few 1 sb /\
    answer s (Call e' o') = answer sa (Call e' o') /\ answer sb (Call e o) = answer s (Call e o) /\ forall w, sim true w sab sba.
Proof.
  intros R F W W' NU ET Q Q' AL E E'.
  destruct (reach_good s R) as (I & G & B & BO).
  assert (Ra : reach sa) by (eapply reach_step; [exact R|apply (few_weaken 2); [lia|exact F]|exact W|exact E]).
  destruct (reach_good sa Ra) as (Ia & Ga & Ba & BOa).
  assert (Fa : few 1 sa) by (apply (few_step 1 e o s sa I Ia (proj2 W) Q E F)).
  assert (Rab : reach sab) by (eapply reach_step; [exact Ra|apply (few_weaken 1); [lia|exact Fa]|exact W'|exact E']).
  destruct (reach_good sab Rab) as (Iab & Gab & Bab & BOab).
  destruct (does_it e o s sa I Ia (proj2 W) Q E) as (r & k & p & lo & up & d & x & y & D).
  destruct (does_it e' o' sa sab Ia Iab (proj2 W') Q' E') as (r' & k' & pa & lo' & up' & d' & x' & y' & D').
  pose proof (do_acts _ _ _ _ _ _ _ _ _ _ _ _ D) as A. pose proof (do_acts _ _ _ _ _ _ _ _ _ _ _ _ D') as AB.
  destruct (decide (k' = k)) as [->|NK].
  - (* the same pool *)
    assert (EA : pa = with_liq p lo up d (e_timestamp e)).
    { pose proof (a_pool _ _ _ _ _ _ _ _ _ _ AB) as E1. rewrite (a_pools _ _ _ _ _ _ _ _ _ _ A), lookup_insert in E1. congruence. }
    assert (EI : p_current_tick_index pa = p_current_tick_index p) by (rewrite EA; apply with_liq_same).
    assert (EL : p_liquidity pa = p_liquidity p + (if in_range lo up (p_current_tick_index p) then d else 0)) by (rewrite EA; apply with_liq_liq).
    pose proof (u256_M _ (po_liq _ _ (I_pool _ I _ _ (a_pool _ _ _ _ _ _ _ _ _ _ A)))) as HP.
    destruct (does_sign _ _ _ _ _ _ _ _ _ _ _ _ Q D) as [SD1 SD2]. destruct (does_sign _ _ _ _ _ _ _ _ _ _ _ _ Q' D') as [SD1' SD2'].
    assert (SG : (closing o = false /\ closing o' = false /\ 0 <= d /\ 0 <= d') \/ (opening o = false /\ opening o' = false /\ d <= 0 /\ d' <= 0))
      by (destruct AL as [[c1 c2]|[c1 c2]]; [left|right]; auto).
    pose proof (do_gross _ _ _ _ _ _ _ _ _ _ _ _ D) as DG.
    assert (CO : closing o = false \/ opening o = false) by (destruct AL as [[? _]|[? _]]; auto).
    assert (CO' : closing o' = false \/ opening o' = false) by (destruct AL as [[_ ?]|[_ ?]]; auto).
    assert (V : view (e_caller e') k sa s pa p) by (rewrite EA; apply (does_view _ _ _ _ _ _ _ _ _ _ _ _ _ (not_eq_sym NU) D CO)).
    destruct (transfer e' o' sa sab s r' k pa p lo' up' d' x' y' Ia Iab I G BO BOa BOab (proj2 W') D' V) as (sb & Eb & HB).
    { intros OP. assert (CL : closing o' = false) by (destruct o'; try discriminate OP; reflexivity).
      destruct SG as [(c1 & _ & dp & dp')|(_ & c2 & _)]; [|rewrite OP in c2; discriminate c2]. split.
      - intros j. rewrite EA, outs_with_liq, ET. apply (do_grows _ _ _ _ _ _ _ _ _ _ _ _ D c1).
      - intros mx Hmx. destruct (do_room _ _ _ _ _ _ _ _ _ _ _ _ D' OP mx Hmx) as [R1 R2].
        rewrite (DG lo') in R1. rewrite (DG up') in R2.
        destruct ((lo =? lo') || (up =? lo')), ((lo =? up') || (up =? up')); lia. }
    { intros IR. pose proof (do_fits _ _ _ _ _ _ _ _ _ _ _ _ D') as HF. rewrite EI, EL in HF. specialize (HF IR).
      destruct (in_range lo up (p_current_tick_index p)); lia. }
    assert (Rb : reach sb) by (eapply reach_step; [exact R|apply (few_weaken 2); [lia|exact F]|exact W'|exact Eb]).
    destruct (reach_good sb Rb) as (Ib & Gb & Bb & BOb).
    assert (Fb : few 1 sb) by (apply (few_step 1 e' o' s sb I Ib (proj2 W') Q' Eb F)).
    destruct (HB Ib) as [DB HV]. clear HB. pose proof (do_acts _ _ _ _ _ _ _ _ _ _ _ _ DB) as ABb.
    set (pb := with_liq p lo' up' d' (e_timestamp e')).
    assert (V2 : view (e_caller e) k s sb p pb) by (apply (does_view _ _ _ _ _ _ _ _ _ _ _ _ _ NU DB CO')).
    destruct (transfer e o s sa sb r k p pb lo up d x y I Ia Ib Gb BOb BO BOa (proj2 W) D V2) as (sba & Eba & HA).
    { intros OP. destruct SG as [(_ & c2 & dp & dp')|(c1 & _)]; [|rewrite OP in c1; discriminate c1]. split.
      - intros j. unfold pb. rewrite outs_with_liq, <- ET. symmetry. apply (do_grows _ _ _ _ _ _ _ _ _ _ _ _ DB c2).
      - intros mx Hmx. destruct (do_room _ _ _ _ _ _ _ _ _ _ _ _ D OP mx Hmx) as [R1 R2].
        rewrite (do_gross _ _ _ _ _ _ _ _ _ _ _ _ DB lo), (do_gross _ _ _ _ _ _ _ _ _ _ _ _ DB up).
        destruct Q' as [Q'|[Q'|Q']]; [|rewrite Q' in c2; discriminate c2|].
        + destruct (do_room _ _ _ _ _ _ _ _ _ _ _ _ D' Q' mx Hmx) as [R3 R4]. rewrite (DG lo') in R3. rewrite (DG up') in R4.
          split.
          * destruct (lo' =? lo) eqn:E1; [apply Z.eqb_eq in E1; subst lo'; rewrite Z.eqb_refl in R3; cbn in *; lia|].
            destruct (up' =? lo) eqn:E2; [apply Z.eqb_eq in E2; subst up'; rewrite Z.eqb_refl in R4; cbn in *; lia|]. cbn. lia.
          * destruct (lo' =? up) eqn:E1; [apply Z.eqb_eq in E1; subst lo'; rewrite Z.eqb_refl, orb_true_r in R3; cbn in *; lia|].
            destruct (up' =? up) eqn:E2; [apply Z.eqb_eq in E2; subst up'; rewrite Z.eqb_refl, orb_true_r in R4; cbn in *; lia|]. cbn. lia.
        + assert (d' = 0) as -> by (destruct (do_sign _ _ _ _ _ _ _ _ _ _ _ _ D') as (_ & _ & H3); auto).
          destruct (_ || _), (_ || _); lia. }
    { unfold pb. destruct (with_liq_same p lo' up' d' (e_timestamp e')) as (_ & -> & _). rewrite with_liq_liq. intros IR.
      pose proof (do_fits _ _ _ _ _ _ _ _ _ _ _ _ D IR) as HF.
      pose proof (do_fits _ _ _ _ _ _ _ _ _ _ _ _ D') as HF'. rewrite EI, EL, IR in HF'.
      destruct (in_range lo' up' (p_current_tick_index p)); [specialize (HF' eq_refl)|]; lia. }
    assert (Rba : reach sba) by (eapply reach_step; [exact Rb|apply (few_weaken 1); [lia|exact Fb]|exact W|exact Eba]).
    destruct (reach_good sba Rba) as (Iba & _ & Bba & _). destruct (HA Iba) as [DA HU]. clear HA.
    exists sb, sba. split; [exact Eb|]. split; [exact Eba|]. split; [exact Rb|]. split; [exact Rba|]. split; [exact Fb|].
    split; [now rewrite (do_answer _ _ _ _ _ _ _ _ _ _ _ _ DB), (do_answer _ _ _ _ _ _ _ _ _ _ _ _ D')|].
    split; [now rewrite (do_answer _ _ _ _ _ _ _ _ _ _ _ _ DA), (do_answer _ _ _ _ _ _ _ _ _ _ _ _ D)|].
    intros w.
    refine (order_sim e e' s sa sb sab sba k p pa pb lo up d x y lo' up' d' x' y' NU ET Iab Iba Bab Bba A ABb AB
      (do_acts _ _ _ _ _ _ _ _ _ _ _ _ DA) HU _ _ w).
    { destruct HV as [v1 v2]. split; [now symmetry|]. intros n. now symmetry. }
    destruct SG as [(c1 & c2 & _)|(c1 & c2 & _)]; [left|right].
    + split; [apply (do_grows _ _ _ _ _ _ _ _ _ _ _ _ D c1)|].
      split; [rewrite <- ET; apply (do_grows _ _ _ _ _ _ _ _ _ _ _ _ DB c2)|].
      split; [rewrite <- ET; apply (do_grows _ _ _ _ _ _ _ _ _ _ _ _ D' c2)|apply (do_grows _ _ _ _ _ _ _ _ _ _ _ _ DA c1)].
    + split; [apply (do_shrinks _ _ _ _ _ _ _ _ _ _ _ _ D c1)|].
      split; [apply (do_shrinks _ _ _ _ _ _ _ _ _ _ _ _ DB c2)|].
      split; [apply (do_shrinks _ _ _ _ _ _ _ _ _ _ _ _ D' c2)|apply (do_shrinks _ _ _ _ _ _ _ _ _ _ _ _ DA c1)].
  - (* different pools *)
    destruct (shape_changes _ _ _ _ _ _ _ _ _ _ _ (do_shape _ _ _ _ _ _ _ _ _ _ _ _ D)) as [C1 C2].
    assert (C3 : changes s (Call e' o') = [UserPart (e_caller e'); PoolPart k'] /\ concerns s (Call e' o') = [UserPart (e_caller e'); PoolPart k']).
    { destruct (a_others _ _ _ _ _ _ _ _ _ _ A (e_caller e') (not_eq_sym NU)) as (_ & _ & HPos).
      pose proof (do_shape _ _ _ _ _ _ _ _ _ _ _ _ D') as SH. destruct o'; cbn [shape] in SH; try contradiction.
      - destruct SH as (-> & _). split; reflexivity.
      - destruct SH as (_ & pos & H & <- & _). rewrite <- HPos in H. cbn. unfold pool_of_position. rewrite H. split; reflexivity.
      - destruct SH as (_ & pos & H & <- & _). rewrite <- HPos in H. cbn. unfold pool_of_position. rewrite H. split; reflexivity. }
    destruct C3 as [C3 C4].
    assert (IN : independent s (Call e o) (Call e' o')).
    { split; intros c; rewrite ?C1, ?C2, ?C3, ?C4, !elem_of_cons, !elem_of_nil; intuition congruence. }
    destruct (commute _ _ _ IN) as [K1 K2]. destruct (commute _ _ _ (independent_sym _ _ _ IN)) as [K3 _].
    assert (Xa : exec_event s (Call e o) = sa) by (cbn [exec_event]; unfold exec_op; now rewrite E). rewrite Xa in K1, K2.
    assert (Xab : exec_event sa (Call e' o') = sab) by (cbn [exec_event]; unfold exec_op; now rewrite E'). rewrite Xab in K2.
    pose proof (do_answer _ _ _ _ _ _ _ _ _ _ _ _ D) as An. pose proof (do_answer _ _ _ _ _ _ _ _ _ _ _ _ D') as An'.
    assert (Eb : run_op e' s o' = Ok (exec_event s (Call e' o'))) by (apply (answer_run _ _ _ r' Q'); congruence).
    set (sb := exec_event s (Call e' o')) in *.
    assert (Eba : run_op e sb o = Ok (exec_event sb (Call e o))) by (apply (answer_run _ _ _ r Q); congruence).
    rewrite <- K2 in Eba.
    assert (Rb : reach sb) by (eapply reach_step; [exact R|apply (few_weaken 2); [lia|exact F]|exact W'|exact Eb]).
    destruct (reach_good sb Rb) as (Ib & _).
    assert (Fb : few 1 sb) by (apply (few_step 1 e' o' s sb I Ib (proj2 W') Q' Eb F)).
    exists sb, sab. split; [exact Eb|]. split; [exact Eba|]. split; [exact Rb|]. split; [exact Rab|]. split; [exact Fb|].
    split; [congruence|]. split; [congruence|]. intros w. apply sim_refl_at, Iab.
Qed.

(** ** A block of calls *)
Lemma bon_trans {A} (R : A -> A -> Prop) o1 o2 o3 : (forall a b c, R a b -> R b c -> R a c) ->
  both_or_none R o1 o2 -> both_or_none R o2 o3 -> both_or_none R o1 o3.
Proof. intros T. destruct o1, o2, o3; cbn; try contradiction; eauto. Qed.
Lemma same_pool_trans p q r : same_pool p q -> same_pool q r -> same_pool p r.
Proof. unfold same_pool. intuition congruence. Qed.
Lemma same_tick_trans p q r : same_tick p q -> same_tick q r -> same_tick p r.
Proof. unfold same_tick. intuition congruence. Qed.
Lemma indist_trans s1 s2 s3 : indistinguishable s1 s2 -> indistinguishable s2 s3 -> indistinguishable s1 s3.
Proof.
  intros H1 H2 u. specialize (H1 u). specialize (H2 u). destruct H1, H2. constructor; intros.
  - intuition congruence.
  - intuition congruence.
  - congruence.
  - eapply bon_trans; [apply same_pool_trans|eauto|eauto].
  - eapply bon_trans; [apply same_tick_trans|eauto|eauto].
  - congruence.
  - congruence.
  - congruence.
  - match goal with |- s_balances _ !! ?v = _ => transitivity (s_balances s2 !! v); auto end.
Qed.

Lemma sim_all u1 u2 s s' : u1 <> u2 -> sim true u1 s s' -> sim true u2 s s' -> indistinguishable s s'.
Proof.
  intros N H1 H2 w. apply sim_same_but_for. destruct H1, H2. constructor; auto.
  - intros i _. apply sm_positions0. now left.
  - intros v _. apply sm_length0. now left.
  - intros v _. destruct (Z.eq_dec v u1) as [->|N1]; auto.
Qed.

Fixpoint above (evs : list event) : Z :=
  match evs with [] => 0 | ev :: evs' => Z.max (caller_of ev + 1) (above evs') end.
Lemma not_by_above u evs : above evs <= u -> Forall (not_by u) evs.
Proof.
  induction evs as [|ev evs IH]; cbn; intros H; constructor; [|apply IH; lia].
  destruct ev; cbn in *; first [exact Logic.I|lia].
Qed.

Lemma run_indist later s s' : Forall event_wf later -> (forall w, sim true w s s') ->
  Forall2 same_answer (answers s later) (answers s' later) /\ indistinguishable (run s later) (run s' later).
Proof.
  intros W H. destruct (run_sim true (above later) later W (not_by_above _ _ (Z.le_refl _)) s s' (H _)) as [A S1].
  destruct (run_sim true (above later + 1) later W (not_by_above (above later + 1) later ltac:(lia)) s s' (H _)) as [_ S2].
  split; [exact A|]. eapply sim_all; [|exact S1|exact S2]. lia.
Qed.

Lemma indist_refl s : reach s -> indistinguishable s s.
Proof. intros R w. apply sim_same_but_for, sim_refl_at. apply (reach_good s R). Qed.

Definition call_of (C : op -> Prop) (ts : Z) (ev : event) : Prop :=
  match ev with Call e o => event_wf (Call e o) /\ e_timestamp e = ts /\ liquidity_call o /\ C o | _ => False end.

Lemma liquidity_same_answer e o s s' : liquidity_call o -> same_answer (answer s (Call e o)) (answer s' (Call e o)) ->
  answer s (Call e o) = answer s' (Call e o).
Proof.
  intros Q. destruct o; try (destruct Q as [Q|[Q|Q]]; discriminate Q); cbn [answer]; unfold told.
  - destruct (create_position _ _ _ _ _ _ _ _) as [[? ?]| | |], (create_position _ s' _ _ _ _ _ _) as [[? ?]| | |]; auto.
  - destruct (remove_position _ _ _) as [[? [? ?]]| | |], (remove_position _ s' _) as [[? [? ?]]| | |]; auto.
  - destruct (claim_fee _ _ _) as [[? [? ?]]| | |], (claim_fee _ s' _) as [[? [? ?]]| | |]; auto.
Qed.
Lemma answers_same (C : op -> Prop) (ts : Z) l : Forall (call_of C ts) l -> forall s s', Forall2 same_answer (answers s l) (answers s' l) -> answers s l = answers s' l.
Proof.
  induction 1 as [|ev l H _ IH]; intros s s' F; [reflexivity|]. cbn [answers] in *. inversion F; subst.
  destruct ev as [e o| | |]; try contradiction. destruct H as (_ & _ & Q & _). f_equal; [now apply liquidity_same_answer|]. apply IH. assumption.
Qed.

Lemma perm_order (C : op -> Prop) (ts : Z) : (forall o o', C o -> C o' -> alike o o') -> forall l l', Permutation l l' -> forall s,
  reach s -> few (Z.of_nat (length l)) s -> Forall (call_of C ts) l -> NoDup (map caller_of l) -> Forall went_through (answers s l) ->
  Forall went_through (answers s l') /\ Permutation (combine l (answers s l)) (combine l' (answers s l')) /\ indistinguishable (run s l) (run s l').
Proof.
  intros AL. induction 1 as [|ev l l' P IH|a b l|l l' l'' P1 IH1 P2 IH2]; intros s R F FC ND T.
  - split; [constructor|]. split; [constructor|]. now apply indist_refl.
  - apply Forall_cons in FC as [C1 FC]. cbn [map] in ND. apply NoDup_cons in ND as [_ ND]. cbn [answers] in T. apply Forall_cons in T as [[r T1] T].
    cbn [answers run combine].
    destruct ev as [e o| | |]; try contradiction. destruct C1 as (W & _ & Q & _). pose proof (answer_run e o s r Q T1) as E.
    cbn [length] in F. rewrite Nat2Z.inj_succ, <- Z.add_1_r in F.
    assert (Ra : reach (exec_event s (Call e o))) by (eapply reach_step; [exact R|apply (few_weaken (Z.of_nat (length l) + 1)); [lia|exact F]|exact W|exact E]).
    assert (Fa : few (Z.of_nat (length l)) (exec_event s (Call e o))).
    { apply (few_step _ e o s); [apply (reach_good s R)|apply (reach_good _ Ra)|apply W|exact Q|exact E|exact F]. }
    destruct (IH _ Ra Fa FC ND T) as (K1 & K2 & K3). split; [constructor; [now exists r|exact K1]|]. split; [now constructor|exact K3].
  - (* the original order is [b; a], the other [a; b] *)
    apply Forall_cons in FC as [C1 FC]. apply Forall_cons in FC as [C2 FC]. cbn [map] in ND.
    apply NoDup_cons in ND as [N1 ND]. apply NoDup_cons in ND as [_ ND].
    cbn [answers] in T. apply Forall_cons in T as [[r1 T1] T]. apply Forall_cons in T as [[r2 T2] T].
    cbn [answers run combine].
    destruct b as [e o| | |]; try contradiction. destruct a as [e' o'| | |]; try contradiction.
    destruct C1 as (W & Ts & Q & Co). destruct C2 as (W' & Ts' & Q' & Co').
    pose proof (answer_run e o s r1 Q T1) as E. pose proof (answer_run e' o' _ r2 Q' T2) as E'.
    cbn [length] in F.
    assert (NU : e_caller e <> e_caller e') by (intros EQ; apply N1; cbn [caller_of]; rewrite EQ; left).
    assert (F2 : few 2 s) by (eapply few_weaken; [|exact F]; cbn [length]; lia).
    destruct (pair_order s e o e' o' _ _ R F2 W W' NU ltac:(congruence) Q Q' (AL _ _ Co Co') E E')
      as (sb & sba & Eb & Eba & Rb & Rba & Fb & A1 & A2 & S).
    assert (Xb : exec_event s (Call e' o') = sb) by (cbn [exec_event]; unfold exec_op; now rewrite Eb).
    assert (Xba : exec_event sb (Call e o) = sba) by (cbn [exec_event]; unfold exec_op; now rewrite Eba).
    rewrite Xb, Xba, A1, A2.
    assert (WF : Forall event_wf l) by (eapply Forall_impl; [exact FC|]; intros [e0 o0| | |]; cbn; try contradiction; intros (? & _); auto).
    destruct (run_indist l _ _ WF S) as [S1 S2]. apply (answers_same C ts l FC) in S1. rewrite <- S1.
    split; [constructor; [now exists r2|]; constructor; [now exists r1|exact T]|].
    split; [apply perm_swap|exact S2].
  - destruct (IH1 s R F FC ND T) as (K1 & K2 & K3).
    destruct (IH2 s R) as (L1 & L2 & L3).
    + now rewrite <- (Permutation_length P1).
    + now rewrite <- P1.
    + now rewrite <- P1.
    + exact K1.
    + split; [exact L1|]. split; [now rewrite K2|]. eapply indist_trans; eauto.
Qed.

Lemma run_reach C ts l : forall s, reach s -> few (Z.of_nat (length l)) s -> Forall (call_of C ts) l -> Forall went_through (answers s l) -> reach (run s l).
Proof.
  induction l as [|ev l IH]; intros s R F FC T; [exact R|].
  apply Forall_cons in FC as [C1 FC]. cbn [answers] in T. apply Forall_cons in T as [[r T1] T]. cbn [run].
  destruct ev as [e o| | |]; try contradiction. destruct C1 as (W & _ & Q & _). pose proof (answer_run e o s r Q T1) as E.
  cbn [length] in F. rewrite Nat2Z.inj_succ, <- Z.add_1_r in F.
  assert (Ra : reach (exec_event s (Call e o))) by (eapply reach_step; [exact R|apply (few_weaken (Z.of_nat (length l) + 1)); [lia|exact F]|exact W|exact E]).
  apply IH; auto. apply (few_step _ e o s); [apply (reach_good s R)|apply (reach_good _ Ra)|apply W|exact Q|exact E|exact F].
Qed.
