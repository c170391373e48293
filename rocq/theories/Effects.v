(** * Exact effect of each instruction on the accounts. *)
From Coq Require Import ZArith QArith List Bool Lia ZifyBool Lqa.
From Verif Require Import Base MathModel CurveModel FeeModel ConfigModel PoolModel TxModel
  SystemModel Spec Lib CurveProofs CurveLoops Potential CalcProofs ConfigProofs FeeProofs
  SwapProofs InvProofs InvOps InvReach.
Import ListNotations.
Open Scope Z_scope.
#[local] Arguments Z.pow : simpl never.
#[local] Arguments Z.testbit : simpl never.
#[local] Arguments unless : simpl never.

(** The pool becomes [p], the movements [l] happen, nothing else of the first group changes. *)
Record eff (w w' : world) (p : pool) (l : list transfer) : Prop := {
  ef_pool : w_pool w' = p;
  ef_log : w_log w' = w_log w ++ l;
  ef_key : w_key w' = w_key w;
  ef_config : w_config w' = w_config w;
  ef_base : w_bvault w' = w_bvault w + net TBase l;
  ef_quote : w_qvault w' = w_qvault w + net TQuote l;
  ef_sol : w_lamports w' = w_lamports w + net TSol l
}.

(** Second group of accounts. *)
Record rest_same (w w' : world) : Prop := {
  rs_supply : w_supply w' = w_supply w;
  rs_mint : w_mint_auth w' = w_mint_auth w;
  rs_update : w_update_auth w' = w_update_auth w;
  rs_meta : w_meta w' = w_meta w;
  rs_lp : w_lp w' = w_lp w;
  rs_escrow : w_escrow w' = w_escrow w;
  rs_positions : w_positions w' = w_positions w;
  rs_admins : w_admins w' = w_admins w;
  rs_operators : w_operators w' = w_operators w
}.

Lemma net_app t a b : net t (a ++ b) = net t a + net t b.
Proof. induction a; simpl; lia. Qed.

Lemma eff_refl w : eff w w (w_pool w) [].
Proof. constructor; simpl; auto; try lia. rewrite app_nil_r; auto. Qed.

Lemma eff_trans w w1 w2 p1 p2 l1 l2 :
  eff w w1 p1 l1 -> eff w1 w2 p2 l2 -> eff w w2 p2 (l1 ++ l2).
Proof.
  intros [a1 a2 a3 a4 a5 a6 a7] [b1 b2 b3 b4 b5 b6 b7].
  constructor; rewrite ?net_app; try congruence; try lia.
  rewrite b2, a2, app_assoc. auto.
Qed.

Lemma rest_refl w : rest_same w w. Proof. constructor; auto. Qed.
Lemma rest_trans w w1 w2 : rest_same w w1 -> rest_same w1 w2 -> rest_same w w2.
Proof. intros [] []. constructor; congruence. Qed.

Lemma eff_set_pool w w' p l q : eff w w' p l -> eff w (set_w_pool w' q) q l.
Proof. intros []. constructor; auto. Qed.
Lemma eff_pool w q : eff w (set_w_pool w q) q [].
Proof. exact (eff_set_pool _ _ _ _ q (eff_refl w)). Qed.
Lemma rest_set_pool w w' q : rest_same w w' -> rest_same w (set_w_pool w' q).
Proof. intros []. constructor; auto. Qed.

Lemma pay_base_eff w to a w' : is_pool to = false -> pay_base w to a = Ok w' ->
  eff w w' (w_pool w) [mkTransfer TBase PPool to a] /\ rest_same w w' /\ a <= w_bvault w.
Proof.
  intros N H. unfold pay_base in H. apply bind_ok in H. destruct H as (u & L & H).
  apply require_ok in L. apply Ok_inj in H. subst w'.
  split; [|split; [constructor; reflexivity|lia]].
  constructor; simpl; auto; unfold flow; simpl; rewrite ?N; lia.
Qed.
Lemma pay_quote_eff w to a w' : is_pool to = false -> pay_quote w to a = Ok w' ->
  eff w w' (w_pool w) [mkTransfer TQuote PPool to a] /\ rest_same w w' /\ a <= w_qvault w.
Proof.
  intros N H. unfold pay_quote in H. apply bind_ok in H. destruct H as (u & L & H).
  apply require_ok in L. apply Ok_inj in H. subst w'.
  split; [|split; [constructor; reflexivity|lia]].
  constructor; simpl; auto; unfold flow; simpl; rewrite ?N; lia.
Qed.
Lemma pay_lamports_eff w to a w' : is_pool to = false -> pay_lamports w to a = Ok w' ->
  eff w w' (w_pool w) [mkTransfer TSol PPool to a] /\ rest_same w w' /\ a <= w_lamports w.
Proof.
  intros N H. unfold pay_lamports in H. apply bind_ok in H. destruct H as (u & L & H).
  apply require_ok in L. apply Ok_inj in H. subst w'.
  split; [|split; [constructor; reflexivity|lia]].
  constructor; simpl; auto; unfold flow; simpl; rewrite ?N; lia.
Qed.

Lemma pool_set w p : w_pool (set_w_pool w p) = p. Proof. reflexivity. Qed.

(** ** Trading fee claims *)
Lemma partner_eff w s to b q w' :
  claim_partner_fee w s to b q = Ok w' ->
  let x := Z.min (p_partner_base (w_pool w)) b in
  let y := Z.min (p_partner_quote (w_pool w)) q in
  s = c_fee_claimer (w_config w)
  /\ eff w w' (set_partner_quote (set_partner_base (w_pool w) (p_partner_base (w_pool w) - x))
                (p_partner_quote (w_pool w) - y))
       [mkTransfer TBase PPool (PKey to) x; mkTransfer TQuote PPool (PKey to) y]
  /\ rest_same w w'.
Proof.
  intros H x y. unfold claim_partner_fee, check_partner in H.
  apply bind_ok in H. destruct H as (u & C & H). apply require_ok in C.
  apply bind_ok in H. destruct H as ([[p b1] q1] & R & H).
  unfold claim_partner_trading_fee in R. cbv zeta in R.
  apply bind_ok in R. destruct R as (vb & VB & R). apply ssub_ok in VB. destruct VB as (-> & _).
  apply bind_ok in R. destruct R as (vq & VQ & R). apply ssub_ok in VQ. destruct VQ as (-> & _).
  apply Ok_inj in R. apply pair_inj in R. destruct R as (R & <-). apply pair_inj in R.
  destruct R as (<- & <-).
  apply bind_ok in H. destruct H as (w1 & P1 & H).
  apply pay_base_eff in P1; auto. destruct P1 as (E1 & R1 & _). rewrite pool_set in E1.
  apply pay_quote_eff in H; auto. destruct H as (E2 & R2 & _).
  rewrite (ef_pool _ _ _ _ E1) in E2.
  split; [lia|]. split.
  - exact (eff_trans _ _ _ _ _ [] _ (eff_pool w _)
             (eff_trans _ _ _ _ _ _ _ E1 E2)).
  - eapply rest_trans; [|exact R2]. eapply rest_trans; [|exact R1].
    apply rest_set_pool, rest_refl.
Qed.

Lemma creator_eff w s to b q w' :
  claim_creator_fee w s to b q = Ok w' ->
  let x := Z.min (p_creator_base (w_pool w)) b in
  let y := Z.min (p_creator_quote (w_pool w)) q in
  s = p_creator (w_pool w)
  /\ eff w w' (set_creator_quote (set_creator_base (w_pool w) (p_creator_base (w_pool w) - x))
                (p_creator_quote (w_pool w) - y))
       [mkTransfer TBase PPool (PKey to) x; mkTransfer TQuote PPool (PKey to) y]
  /\ rest_same w w'.
Proof.
  intros H x y. unfold claim_creator_fee, check_creator in H.
  apply bind_ok in H. destruct H as (u & C & H). apply require_ok in C.
  apply bind_ok in H. destruct H as ([[p b1] q1] & R & H).
  unfold claim_creator_trading_fee in R. cbv zeta in R.
  apply bind_ok in R. destruct R as (vb & VB & R). apply ssub_ok in VB. destruct VB as (-> & _).
  apply bind_ok in R. destruct R as (vq & VQ & R). apply ssub_ok in VQ. destruct VQ as (-> & _).
  apply Ok_inj in R. apply pair_inj in R. destruct R as (R & <-). apply pair_inj in R.
  destruct R as (<- & <-).
  apply bind_ok in H. destruct H as (w1 & P1 & H).
  apply pay_base_eff in P1; auto. destruct P1 as (E1 & R1 & _). rewrite pool_set in E1.
  apply pay_quote_eff in H; auto. destruct H as (E2 & R2 & _).
  rewrite (ef_pool _ _ _ _ E1) in E2.
  split; [lia|]. split.
  - exact (eff_trans _ _ _ _ _ [] _ (eff_pool w _)
             (eff_trans _ _ _ _ _ _ _ E1 E2)).
  - eapply rest_trans; [|exact R2]. eapply rest_trans; [|exact R1].
    apply rest_set_pool, rest_refl.
Qed.

(** ** Protocol claims *)
Definition permitted (w : world) (signer bit : Z) : Prop :=
  exists perm, find_operator (w_operators w) signer = Some perm /\ Z.testbit perm bit = true.

Lemma land_pow2 a n : 0 <= n -> Z.land a (2 ^ n) =? 0 = negb (Z.testbit a n).
Proof.
  intros Hn. destruct (Z.testbit a n) eqn:T; simpl.
  - apply Z.eqb_neq. intros E. assert (X : Z.testbit (Z.land a (2 ^ n)) n = true).
    { rewrite Z.land_spec, T, Z.pow2_bits_true; auto. }
    rewrite E, Z.bits_0 in X. discriminate.
  - apply Z.eqb_eq. apply Z.bits_inj'. intros m Hm. rewrite Z.land_spec, Z.bits_0.
    destruct (Z.eq_dec n m); [subst; rewrite T; auto|].
    rewrite Z.pow2_bits_false by lia. apply andb_false_r.
Qed.

Lemma check_operator_ok w s bit : 0 <= bit ->
  check_operator w s bit = Ok tt <-> permitted w s bit.
Proof.
  intros Hb. unfold check_operator, permitted. split.
  - destruct (find_operator (w_operators w) s) as [perm|]; [|discriminate]. intros H.
    apply require_ok in H. rewrite land_pow2 in H by auto. exists perm. split; auto.
    rewrite negb_involutive in H. auto.
  - intros (perm & -> & T). rewrite land_pow2, T by auto. reflexivity.
Qed.

Lemma protocol_eff w s b q w' : Inv w -> 0 <= b -> 0 <= q ->
  claim_protocol_fee w s b q = Ok w' ->
  let p := w_pool w in
  let x := Z.min b (p_protocol_base p + p_mig_base_fee p) in
  let y := Z.min q (p_protocol_quote p + p_mig_quote_fee p) in
  let paid_surplus := (p_protocol_surplus p =? 0) && (c_threshold (w_config w) <=? p_quote p) in
  let z := if paid_surplus then surplus_protocol (w_config w) (p_quote p) else 0 in
  permitted w s 0
  /\ exists p', eff w w' p'
       ((if 0 <? x then [mkTransfer TBase PPool PTreasury x] else [])
        ++ (if 0 <? y + z then [mkTransfer TQuote PPool PTreasury (y + z)] else []))
  /\ rest_same w w'
  /\ exists a1 b1 a2 b2, a1 + b1 = x /\ a2 + b2 = y /\ 0 <= a1 /\ 0 <= b1 /\ 0 <= a2 /\ 0 <= b2
     /\ let p1 := set_mig_base_fee (set_protocol_base p (p_protocol_base p - a1)) (p_mig_base_fee p - b1) in
        let p2 := set_mig_quote_fee (set_protocol_quote p1 (p_protocol_quote p - a2)) (p_mig_quote_fee p - b2) in
        p' = if paid_surplus then set_protocol_surplus p2 1 else p2.
Proof.
  intros I Hb Hq H p x y ps z.
  pose proof (iv_nonneg _ I) as (N1 & N2 & N3 & N4 & N5 & N6 & N7 & N8 & N9 & N10).
  unfold claim_protocol_fee in H.
  apply bind_ok in H. destruct H as ([] & C & H). unfold CLAIM_PROTOCOL_FEE in C.
  apply check_operator_ok in C; [|lia]. split; auto.
  apply bind_ok in H. destruct H as ([p1 bb] & CB & H).
  apply claim_base_ok in CB; auto. destruct CB as (a1 & b1 & A1 & B1 & S1 & X1 & EP1).
  apply bind_ok in H. destruct H as (w1 & P1 & H).
  apply bind_ok in H. destruct H as ([p2 qq] & CQ & H).
  unfold claim_protocol_quote_fee_and_surplus in CQ.
  apply bind_ok in CQ. destruct CQ as ([p3 am] & CQ1 & CQ).
  apply claim_quote_ok in CQ1; auto; try (rewrite EP1; simpl; auto; fail).
  destruct CQ1 as (a2 & b2 & A2 & B2 & S2 & Y2 & EP3).
  assert (EQ : p_protocol_quote p1 = p_protocol_quote p /\ p_mig_quote_fee p1 = p_mig_quote_fee p
     /\ p_protocol_surplus p3 = p_protocol_surplus p /\ p_quote p3 = p_quote p).
  { rewrite EP3, EP1. auto. }
  destruct EQ as (E1 & E2 & E3 & E4). rewrite E1, E2 in *.
  assert (YE : am = y) by (unfold y; lia). assert (XE : bb = x) by (unfold x, p; lia).
  rewrite E3 in CQ. unfold is_curve_complete in CQ. rewrite E4 in CQ. fold ps in CQ.
  assert (QZ : qq = y + z /\ p2 = if ps then set_protocol_surplus p3 1 else p3).
  { unfold z. destruct ps.
    - apply bind_ok in CQ. destruct CQ as (sp & SP & CQ).
      apply protocol_surplus_eq in SP. rewrite E4 in SP.
      apply bind_ok in CQ. destruct CQ as (tt & TT & CQ). apply sadd_ok in TT.
      apply Ok_inj in CQ. apply pair_inj in CQ. destruct CQ as (<- & <-). split; auto. lia.
    - apply Ok_inj in CQ. apply pair_inj in CQ. destruct CQ as (<- & <-). split; auto. lia. }
  destruct QZ as (QE & PE2). clear CQ. rewrite XE in P1. rewrite QE in H.
  assert (F1 : eff w w1 p1 (if 0 <? x then [mkTransfer TBase PPool PTreasury x] else [])
            /\ rest_same w w1).
  { destruct (0 <? x).
    - apply pay_base_eff in P1; auto. destruct P1 as (G1 & G2 & _). rewrite pool_set in G1. split.
      + eapply (eff_trans w (set_w_pool w _) _ _ _ []); [apply eff_pool|exact G1].
      + eapply rest_trans; [|exact G2]. apply rest_set_pool, rest_refl.
    - apply Ok_inj in P1. subst w1. split; [apply eff_pool|apply rest_set_pool, rest_refl]. }
  destruct F1 as (F1 & F2).
  exists p2. split; [|split].
  - eapply eff_trans; [exact F1|]. destruct (0 <? y + z).
    + apply pay_quote_eff in H; auto. destruct H as (G1 & G2 & _). rewrite pool_set in G1.
      eapply (eff_trans w1 (set_w_pool w1 _) _ _ _ []); [apply eff_pool|exact G1].
    + apply Ok_inj in H. subst w'. apply eff_pool.
  - eapply rest_trans; [exact F2|]. destruct (0 <? y + z).
    + apply pay_quote_eff in H; auto. destruct H as (_ & G2 & _).
      eapply rest_trans; [|exact G2]. apply rest_set_pool, rest_refl.
    + apply Ok_inj in H. subst w'. apply rest_set_pool, rest_refl.
  - exists a1, b1, a2, b2. repeat (split; [lia|]). rewrite PE2, EP3, EP1. destruct ps; reflexivity.
Qed.

Lemma zap_eff w s m base al ok w' : Inv w -> 0 <= m ->
  zap_protocol_fee w s m base al ok = Ok w' ->
  let p := w_pool w in
  let x := Z.min m (p_protocol_base p + p_mig_base_fee p) in
  let y := Z.min m (p_protocol_quote p + p_mig_quote_fee p) in
  let paid_surplus := (p_protocol_surplus p =? 0) && (c_threshold (w_config w) <=? p_quote p) in
  let z := if paid_surplus then surplus_protocol (w_config w) (p_quote p) else 0 in
  permitted w s 1 /\ al = true /\ ok = true
  /\ exists p', eff w w' p'
       (if base then [mkTransfer TBase PPool (PKey s) x] else [mkTransfer TQuote PPool (PKey s) (y + z)])
  /\ rest_same w w'
  /\ 0 < (if base then x else y + z)
  /\ exists a b, a + b = (if base then x else y) /\ 0 <= a /\ 0 <= b
     /\ p' = if base
             then set_mig_base_fee (set_protocol_base p (p_protocol_base p - a)) (p_mig_base_fee p - b)
             else let p2 := set_mig_quote_fee (set_protocol_quote p (p_protocol_quote p - a)) (p_mig_quote_fee p - b) in
                  if paid_surplus then set_protocol_surplus p2 1 else p2.
Proof.
  intros I Hm H p x y ps z.
  pose proof (iv_nonneg _ I) as (N1 & N2 & N3 & N4 & N5 & N6 & N7 & N8 & N9 & N10).
  unfold zap_protocol_fee in H.
  apply bind_ok in H. destruct H as ([] & C & H). unfold ZAP_PROTOCOL_FEE in C.
  apply check_operator_ok in C; [|lia]. split; auto.
  apply bind_ok in H. destruct H as (u & AL & H). apply require_ok in AL. split; auto.
  apply bind_ok in H. destruct H as ([p1 am] & CB & H).
  apply bind_ok in H. destruct H as (u2 & AM & H). apply require_ok in AM.
  apply bind_ok in H. destruct H as (u3 & OK & H). apply require_ok in OK. split; auto.
  exists p1. destruct base.
  - apply claim_base_ok in CB; auto. destruct CB as (a1 & b1 & A1 & B1 & S1 & X1 & EP1).
    assert (XE : am = x) by (unfold x, p; lia). rewrite XE in H, AM.
    apply pay_base_eff in H; auto. destruct H as (G1 & G2 & _). rewrite pool_set in G1.
    split. { eapply (eff_trans w (set_w_pool w _) _ _ _ []); [apply eff_pool|exact G1]. }
    split. { eapply rest_trans; [|exact G2]. apply rest_set_pool, rest_refl. }
    split; [lia|]. exists a1, b1. repeat (split; [lia|]). exact EP1.
  - unfold claim_protocol_quote_fee_and_surplus in CB.
    apply bind_ok in CB. destruct CB as ([p3 am3] & CQ1 & CQ).
    apply claim_quote_ok in CQ1; auto.
    destruct CQ1 as (a2 & b2 & A2 & B2 & S2 & Y2 & EP3).
    assert (EQ : p_protocol_surplus p3 = p_protocol_surplus p /\ p_quote p3 = p_quote p).
    { rewrite EP3. auto. }
    destruct EQ as (E3 & E4).
    rewrite E3 in CQ. unfold is_curve_complete in CQ. rewrite E4 in CQ. fold ps in CQ.
    assert (YE : am3 = y) by (unfold y, p; lia).
    assert (QZ : am = y + z /\ p1 = if ps then set_protocol_surplus p3 1 else p3).
    { unfold z. destruct ps.
      - apply bind_ok in CQ. destruct CQ as (sp & SP & CQ).
        apply protocol_surplus_eq in SP. rewrite E4 in SP.
        apply bind_ok in CQ. destruct CQ as (tt & TT & CQ). apply sadd_ok in TT.
        apply Ok_inj in CQ. apply pair_inj in CQ. destruct CQ as (<- & <-). split; auto. lia.
      - apply Ok_inj in CQ. apply pair_inj in CQ. destruct CQ as (<- & <-). split; auto. lia. }
    destruct QZ as (QE & PE2). clear CQ. rewrite QE in H, AM.
    apply pay_quote_eff in H; auto. destruct H as (G1 & G2 & _). rewrite pool_set in G1.
    split. { eapply (eff_trans w (set_w_pool w _) _ _ _ []); [apply eff_pool|exact G1]. }
    split. { eapply rest_trans; [|exact G2]. apply rest_set_pool, rest_refl. }
    split; [lia|]. exists a2, b2. repeat (split; [lia|]). rewrite PE2, EP3. destruct ps; reflexivity.
Qed.

(** ** Surplus, migration fee, leftover *)
Lemma partner_surplus_eff w s to w' : Inv w ->
  withdraw_partner_surplus w s to = Ok w' ->
  s = c_fee_claimer (w_config w) /\ c_threshold (w_config w) <= p_quote (w_pool w)
  /\ p_partner_surplus (w_pool w) = 0
  /\ eff w w' (set_partner_surplus (w_pool w) 1)
      [mkTransfer TQuote PPool (PKey to) (surplus_partner (w_config w) (p_quote (w_pool w)))]
  /\ rest_same w w'.
Proof.
  intros I H. pose proof (created_cfg_ok _ (iv_created _ I)) as K.
  unfold withdraw_partner_surplus, check_partner in H. cbv zeta in H.
  apply bind_ok in H. destruct H as (u & C & H). apply require_ok in C.
  apply bind_ok in H. destruct H as (u1 & CC & H). apply require_ok in CC.
  apply bind_ok in H. destruct H as (u2 & S & H). apply require_ok in S.
  apply bind_ok in H. destruct H as (a & A & H).
  apply bind_ok in H. destruct H as (w1 & P & H). apply Ok_inj in H. subst w'.
  unfold is_curve_complete in CC.
  apply partner_surplus_eq in A; auto; [|lia]. subst a.
  apply pay_quote_eff in P; auto. destruct P as (E & R & _).
  repeat (split; [lia|]). split; [apply eff_set_pool with (p := w_pool w); auto|].
  apply rest_set_pool; auto.
Qed.

Lemma creator_surplus_eff w s to w' : Inv w ->
  withdraw_creator_surplus w s to = Ok w' ->
  s = p_creator (w_pool w) /\ c_threshold (w_config w) <= p_quote (w_pool w)
  /\ p_creator_surplus (w_pool w) = 0
  /\ eff w w' (set_creator_surplus (w_pool w) 1)
      [mkTransfer TQuote PPool (PKey to) (surplus_creator (w_config w) (p_quote (w_pool w)))]
  /\ rest_same w w'.
Proof.
  intros I H. pose proof (created_cfg_ok _ (iv_created _ I)) as K.
  unfold withdraw_creator_surplus, check_creator in H. cbv zeta in H.
  apply bind_ok in H. destruct H as (u & C & H). apply require_ok in C.
  apply bind_ok in H. destruct H as (u1 & CC & H). apply require_ok in CC.
  apply bind_ok in H. destruct H as (u2 & S & H). apply require_ok in S.
  apply bind_ok in H. destruct H as (a & A & H).
  apply bind_ok in H. destruct H as (w1 & P & H). apply Ok_inj in H. subst w'.
  unfold is_curve_complete in CC.
  apply creator_surplus_eq in A; auto; [|lia]. subst a.
  apply pay_quote_eff in P; auto. destruct P as (E & R & _).
  repeat (split; [lia|]). split; [apply eff_set_pool with (p := w_pool w); auto|].
  apply rest_set_pool; auto.
Qed.

(** Which of the four status values; [4] partner paid, [2] creator paid. *)
Lemma migration_fee_eff w s to f w' : Inv w ->
  withdraw_migration_fee w s to f = Ok w' ->
  c_threshold (w_config w) <= p_quote (w_pool w)
  /\ rest_same w w'
  /\ ((f = 0 /\ s = c_fee_claimer (w_config w)
       /\ Z.testbit (p_mig_fee_status (w_pool w)) 2 = false
       /\ eff w w' (set_mig_fee_status (w_pool w) (p_mig_fee_status (w_pool w) + 4))
            [mkTransfer TQuote PPool (PKey to) (migration_fee_partner (w_config w))])
      \/ (f = 1 /\ s = p_creator (w_pool w)
       /\ Z.testbit (p_mig_fee_status (w_pool w)) 1 = false
       /\ eff w w' (set_mig_fee_status (w_pool w) (p_mig_fee_status (w_pool w) + 2))
            [mkTransfer TQuote PPool (PKey to) (migration_fee_creator (w_config w))])).
Proof.
  intros I H. pose proof (created_cfg_ok _ (iv_created _ I)) as K.
  unfold withdraw_migration_fee in H. cbv zeta in H.
  apply bind_ok in H. destruct H as (u & C & H). apply require_ok in C.
  unfold is_curve_complete in C. split; [lia|].
  apply bind_ok in H. destruct H as ([pf cf] & D & H).
  apply mig_fee_dist_eq in D; auto. destruct D as (-> & ->).
  pose proof (iv_status _ I) as ST.
  destruct (f =? 0) eqn:F0; [|destruct (f =? 1) eqn:F1; [|discriminate]].
  - apply bind_ok in H. destruct H as (u1 & S & H). apply require_ok in S.
    apply bind_ok in H. destruct H as (u2 & B & H). apply require_ok in B.
    apply pay_quote_eff in H; auto. destruct H as (E & R & _). rewrite pool_set in E.
    split. { eapply rest_trans; [|exact R]. apply rest_set_pool, rest_refl. }
    left. split; [lia|]. split; [lia|].
    assert (Q : Z.testbit (p_mig_fee_status (w_pool w)) 2 = false
       /\ bit_flip (p_mig_fee_status (w_pool w)) PARTNER_MIGRATION_FEE_MASK
          = p_mig_fee_status (w_pool w) + 4).
    { destruct ST as [X|[X|[X|X]]]; rewrite X in *; try discriminate B; split; reflexivity. }
    destruct Q as (Q1 & Q2). split; auto. rewrite Q2 in E.
    eapply (eff_trans w (set_w_pool w _) _ _ _ []); [apply eff_pool|exact E].
  - apply bind_ok in H. destruct H as (u1 & S & H). apply require_ok in S.
    apply bind_ok in H. destruct H as (u2 & B & H). apply require_ok in B.
    apply pay_quote_eff in H; auto. destruct H as (E & R & _). rewrite pool_set in E.
    split. { eapply rest_trans; [|exact R]. apply rest_set_pool, rest_refl. }
    right. split; [lia|]. split; [lia|].
    assert (Q : Z.testbit (p_mig_fee_status (w_pool w)) 1 = false
       /\ bit_flip (p_mig_fee_status (w_pool w)) CREATOR_MIGRATION_FEE_MASK
          = p_mig_fee_status (w_pool w) + 2).
    { destruct ST as [X|[X|[X|X]]]; rewrite X in *; try discriminate B; split; reflexivity. }
    destruct Q as (Q1 & Q2). split; auto. rewrite Q2 in E.
    eapply (eff_trans w (set_w_pool w _) _ _ _ []); [apply eff_pool|exact E].
Qed.

Lemma leftover_eff w w' : withdraw_leftover w = Ok w' ->
  p_progress (w_pool w) = 3 /\ is_fixed_supply (w_config w) = true /\ p_leftover (w_pool w) = 0
  /\ eff w w' (set_leftover (w_pool w) 1)
      [mkTransfer TBase PPool (PKey (c_leftover_receiver (w_config w)))
         (w_bvault w - (p_partner_base (w_pool w) + p_protocol_base (w_pool w)
                        + p_creator_base (w_pool w)) - p_mig_base_fee (w_pool w))]
  /\ rest_same w w'.
Proof.
  intros H. unfold withdraw_leftover in H. cbv zeta in H.
  apply bind_ok in H. destruct H as (u & C & H). apply require_ok in C. unfold CreatedPool in C.
  apply bind_ok in H. destruct H as (u1 & F & H). apply require_ok in F.
  apply bind_ok in H. destruct H as (u2 & L & H). apply require_ok in L.
  apply bind_ok in H. destruct H as (fees & FE & H). apply fees_sum_eq in FE.
  apply bind_ok in H. destruct H as (a & A & H). apply ssub_ok in A.
  apply bind_ok in H. destruct H as (a2 & A2 & H). apply ssub_ok in A2.
  apply bind_ok in H. destruct H as (w1 & P & H). apply Ok_inj in H. subst w'.
  apply pay_base_eff in P; auto. destruct P as (E & R & _).
  split; [lia|]. split; [exact F|]. split; [lia|]. split; [|apply rest_set_pool; auto].
  replace (w_bvault w - (p_partner_base (w_pool w) + p_protocol_base (w_pool w)
     + p_creator_base (w_pool w)) - p_mig_base_fee (w_pool w)) with a2 by lia.
  apply eff_set_pool with (p := w_pool w); auto.
Qed.

(** ** Creation fee *)
Lemma partner_cf_eff w s to w' : Inv w -> claim_partner_creation_fee w s to = Ok w' ->
  let a := c_pool_creation_fee (w_config w) - creation_fee_protocol (w_config w) in
  s = c_fee_claimer (w_config w) /\ 0 < a /\ Z.testbit (p_creation_bits (w_pool w)) 1 = false
  /\ eff w w' (set_creation_bits (w_pool w) (p_creation_bits (w_pool w) + 2))
       [mkTransfer TSol PPool (PKey to) a]
  /\ rest_same w w'.
Proof.
  intros I H a. unfold claim_partner_creation_fee, check_partner in H. cbv zeta in H.
  apply bind_ok in H. destruct H as (u & C & H). apply require_ok in C.
  apply bind_ok in H. destruct H as ([x y] & S & H).
  apply creation_split_eq in S. destruct S as (_ & ->). fold a in H. simpl snd in H.
  apply bind_ok in H. destruct H as (u1 & P & H). apply require_ok in P.
  apply bind_ok in H. destruct H as (u2 & B & H). apply require_ok in B.
  apply pay_lamports_eff in H; auto. destruct H as (E & R & _). rewrite pool_set in E.
  pose proof (iv_cbits _ I) as ST.
  assert (Q : Z.testbit (p_creation_bits (w_pool w)) 1 = false
       /\ bit_flip (p_creation_bits (w_pool w)) PARTNER_CREATION_FEE_MASK
          = p_creation_bits (w_pool w) + 2).
  { destruct ST as [X|[X|[X|X]]]; rewrite X in *; try discriminate B; split; reflexivity. }
  destruct Q as (Q1 & Q2). rewrite Q2 in E.
  split; [lia|]. split; [lia|]. split; auto. split.
  - eapply (eff_trans w (set_w_pool w _) _ _ _ []); [apply eff_pool|exact E].
  - eapply rest_trans; [|exact R]. apply rest_set_pool, rest_refl.
Qed.

Lemma protocol_cf_eff w s w' : Inv w -> claim_protocol_creation_fee w s = Ok w' ->
  let fresh := negb (Z.testbit (p_creation_bits (w_pool w)) 0) in
  let a := if fresh then creation_fee_protocol (w_config w) else 0 in
  permitted w s 0
  /\ eff w w' (if fresh then set_creation_bits (w_pool w) (p_creation_bits (w_pool w) + 1)
               else w_pool w)
       (if 0 <? a then [mkTransfer TSol PPool PTreasury a] else [])
  /\ rest_same w w'.
Proof.
  intros I H fresh a. unfold claim_protocol_creation_fee in H. cbv zeta in H.
  apply bind_ok in H. destruct H as ([] & C & H). unfold CLAIM_PROTOCOL_FEE in C.
  apply check_operator_ok in C; [|lia]. split; auto.
  pose proof (iv_cbits _ I) as ST. pose proof (iv_legacy _ I) as LG.
  assert (BU : bit_unset (p_creation_bits (w_pool w)) PROTOCOL_CREATION_FEE_MASK = fresh).
  { unfold fresh. destruct ST as [X|[X|[X|X]]]; rewrite X; reflexivity. }
  assert (BF : fresh = true -> bit_flip (p_creation_bits (w_pool w)) PROTOCOL_CREATION_FEE_MASK
      = p_creation_bits (w_pool w) + 1).
  { unfold fresh. destruct ST as [X|[X|[X|X]]]; rewrite X; intros; try discriminate; reflexivity. }
  rewrite BU in H.
  apply bind_ok in H. destruct H as ([p1 f1] & R & H).
  assert (P1 : p1 = (if fresh then set_creation_bits (w_pool w) (p_creation_bits (w_pool w) + 1)
                     else w_pool w) /\ f1 = a).
  { unfold a. destruct fresh.
    - apply bind_ok in R. destruct R as ([x y] & S & R). apply creation_split_eq in S.
      destruct S as (-> & _). simpl fst in R. rewrite (BF eq_refl) in R.
      apply Ok_inj in R. apply pair_inj in R. destruct R; auto.
    - apply Ok_inj in R. apply pair_inj in R. destruct R; auto. }
  destruct P1 as (P1 & F1).
  assert (L1 : p_legacy_bits p1 = 0) by (rewrite P1; destruct fresh; auto).
  rewrite L1 in H. apply bind_ok in H. destruct H as ([p2 f2] & R2 & H).
  change (negb (bit_unset 0 LEGACY_CHARGED_MASK)) with false in R2.
  cbn [andb] in R2. apply Ok_inj in R2. apply pair_inj in R2. destruct R2 as (<- & <-).
  rewrite F1 in H. rewrite <- P1. destruct (0 <? a).
  - apply pay_lamports_eff in H; auto. destruct H as (E & R' & _). rewrite pool_set in E. split.
    + eapply (eff_trans w (set_w_pool w _) _ _ _ []); [apply eff_pool|exact E].
    + eapply rest_trans; [|exact R']. apply rest_set_pool, rest_refl.
  - apply Ok_inj in H. subst w'. split; [apply eff_pool|apply rest_set_pool, rest_refl].
Qed.

(** ** Creator role, vesting lock, metadata *)
Lemma transfer_creator_eff w s n w' : transfer_creator w s n = Ok w' ->
  s = p_creator (w_pool w) /\ n <> s
  /\ (p_progress (w_pool w) = 0 \/ p_progress (w_pool w) = 3)
  /\ (p_progress (w_pool w) = 3 -> c_migration_option (w_config w) = 0 ->
      exists m, w_meta w = Some m
        /\ (m_partner_locked m = 0 \/ m_partner_lock_done m = 1)
        /\ (m_creator_locked m = 0 \/ m_creator_lock_done m = 1)
        /\ (m_creator_liq m = 0 \/ m_creator_claim_done m = 1)
        /\ (m_partner_liq m = 0 \/ m_partner_claim_done m = 1))
  /\ eff w w' (set_creator (w_pool w) n) [] /\ rest_same w w'.
Proof.
  unfold transfer_creator, check_creator. intros H.
  apply bind_ok in H. destruct H as (u & C & H). apply require_ok in C.
  apply bind_ok in H. destruct H as (u1 & N & H). apply require_ok in N. cbv zeta in H.
  apply bind_ok in H. destruct H as (u2 & G & H). apply Ok_inj in H. subst w'.
  split; [lia|]. split; [lia|]. unfold PreBondingCurve, CreatedPool in G.
  split; [|split]; [| |split; [apply eff_pool|apply rest_set_pool, rest_refl]].
  - destruct (p_progress (w_pool w) =? 0) eqn:P0; [left; lia|].
    destruct (p_progress (w_pool w) =? 3) eqn:P3; [right; lia|discriminate].
  - intros P O. rewrite P, O in G. simpl in G.
    apply bind_ok in G. destruct G as (m & M & G). apply ok_or_ok in M.
    apply bind_ok in G. destruct G as (g1 & G1 & G). apply require_ok in G1.
    apply bind_ok in G. destruct G as (g2 & G2 & G). apply require_ok in G2.
    apply bind_ok in G. destruct G as (g3 & G3 & G). apply require_ok in G3.
    apply require_ok in G. exists m. split; auto. repeat split; lia.
Qed.

Lemma locker_eff w w' : create_locker w = Ok w' ->
  p_progress (w_pool w) = 1
  /\ eff w w' (set_progress (w_pool w) 2)
       [mkTransfer TBase PPool PEscrow (vesting_total (w_config w))]
  /\ w_escrow w' = Some (p_creator (w_pool w), vesting_total (w_config w),
                         to_create_vesting_escrow_params (c_vesting (w_config w)) (p_finish (w_pool w)))
  /\ w_supply w' = w_supply w /\ w_mint_auth w' = w_mint_auth w
  /\ w_update_auth w' = w_update_auth w /\ w_meta w' = w_meta w /\ w_lp w' = w_lp w
  /\ w_positions w' = w_positions w /\ w_admins w' = w_admins w /\ w_operators w' = w_operators w.
Proof.
  unfold create_locker. cbv zeta. intros H.
  apply bind_ok in H. destruct H as (u & P & H). apply require_ok in P. unfold PostBondingCurve in P.
  apply bind_ok in H. destruct H as (t & T & H). apply lv_total_eq in T. subst t.
  apply bind_ok in H. destruct H as (w1 & W & H). apply Ok_inj in H. subst w'.
  apply pay_base_eff in W; auto. destruct W as ([] & [] & _).
  split; [lia|]. split; [constructor; auto|]. repeat (split; [assumption || reflexivity|]). assumption.
Qed.

Lemma metadata_eff w w' : create_v1_metadata w = Ok w' ->
  c_migration_option (w_config w) = 0 /\ w_meta w = None
  /\ eff w w' (w_pool w) []
  /\ w_meta w' = Some (mkMeta (c_fee_claimer (w_config w)) 0 0 0 0 0 0 0 0)
  /\ w_supply w' = w_supply w /\ w_mint_auth w' = w_mint_auth w
  /\ w_update_auth w' = w_update_auth w /\ w_escrow w' = w_escrow w /\ w_lp w' = w_lp w
  /\ w_positions w' = w_positions w /\ w_admins w' = w_admins w /\ w_operators w' = w_operators w.
Proof.
  unfold create_v1_metadata. intros H.
  apply bind_ok in H. destruct H as (u & O & H). apply require_ok in O.
  apply bind_ok in H. destruct H as (u1 & M & H). apply require_ok in M. apply Ok_inj in H. subst w'.
  split; [lia|]. split. { destruct (w_meta w); [discriminate M|reflexivity]. }
  split. { destruct (eff_refl w). constructor; auto. }
  repeat (split; [reflexivity|]). reflexivity.
Qed.

(** ** Migration *)
Definition burned (b : Z) : list transfer := if 0 <? b then [mkTransfer TBase PPool PMint b] else [].

Lemma burn_rest_eff w fb w' : burn_rest w fb = Ok w' ->
  exists b m, eff w w' (w_pool w) (burned b) /\ w_supply w' = w_supply w - b
    /\ get_burnable_amount (w_config w) (w_bvault w -
        (p_partner_base (w_pool w) + p_protocol_base (w_pool w) + p_creator_base (w_pool w) + fb))
        = Ok m /\ b = Z.max 0 m
    /\ p_partner_base (w_pool w) + p_protocol_base (w_pool w) + p_creator_base (w_pool w) + fb
       <= w_bvault w - b
    /\ w_mint_auth w' = w_mint_auth w /\ w_escrow w' = w_escrow w
    /\ w_update_auth w' = w_update_auth w /\ w_meta w' = w_meta w /\ w_lp w' = w_lp w
    /\ w_positions w' = w_positions w /\ w_admins w' = w_admins w /\ w_operators w' = w_operators w.
Proof.
  unfold burn_rest. intros H.
  apply bind_ok in H. destruct H as (fees & F & H). apply fees_sum_eq in F.
  apply bind_ok in H. destruct H as (k & K & H). apply sadd_ok in K.
  apply bind_ok in H. destruct H as (l & L & H). apply ssub_ok in L.
  apply bind_ok in H. destruct H as (b & B & H). pose proof (burnable_le _ _ _ B).
  assert (EL : l = w_bvault w - (p_partner_base (w_pool w) + p_protocol_base (w_pool w)
                 + p_creator_base (w_pool w) + fb)) by lia.
  rewrite EL in B. exists (Z.max 0 b), b.
  destruct (0 <? b) eqn:Z0.
  - replace (Z.max 0 b) with b by lia.
    unfold burn_base, log in H. apply bind_ok in H. destruct H as (u & _ & H). apply Ok_inj in H.
    subst w'. split.
    { constructor; simpl; auto; unfold burned; rewrite Z0; simpl; unfold flow; simpl; auto; lia. }
    repeat (split; [first [assumption|reflexivity|lia]|]). reflexivity.
  - replace (Z.max 0 b) with 0 by lia. apply Ok_inj in H. subst w'.
    split. { apply eff_refl. }
    repeat (split; [first [assumption|reflexivity|lia]|]). reflexivity.
Qed.

(** What both migrations do to the pool account. *)
Definition migrated_pool (p : pool) (fb fq : Z) : pool :=
  set_progress (set_is_migrated (set_mig_quote_fee (set_mig_base_fee p fb) fq) 1) 3.

Lemma ready_ok w o : migration_ready w o = Ok tt ->
  p_progress (w_pool w) = 2 /\ c_threshold (w_config w) <= p_quote (w_pool w)
  /\ c_migration_option (w_config w) = o.
Proof.
  unfold migration_ready. cbv zeta. intros H.
  apply bind_ok in H. destruct H as (u & A & H). apply require_ok in A. unfold LockedVesting in A.
  apply bind_ok in H. destruct H as (u1 & B & H). apply require_ok in B. unfold is_curve_complete in B.
  apply require_ok in H. lia.
Qed.

Lemma v1_dist_eq da db pl pu cl cu :
  to_damm_v1_distribution (da, db) = Ok (pl, pu, cl, cu) ->
  pl = li_perm da /\ pu = li_unlocked da /\ cl = li_perm db /\ cu = li_unlocked db.
Proof. unfold to_damm_v1_distribution. intros H. minv. inversion H; subst. auto. Qed.

Lemma migrate_v1_eff w ok lp w' : migrate_v1 w ok lp = Ok w' ->
  exists m m' fb fq eb eq b mb,
    ok = true /\ p_progress (w_pool w) = 2 /\ c_migration_option (w_config w) = 0
    /\ w_meta w = Some m
    /\ migration_split w Compounding = Ok (fb, fq, eb, eq)
    /\ eff w w' (migrated_pool (w_pool w) fb fq)
         ([mkTransfer TBase PPool PDamm eb; mkTransfer TQuote PPool PDamm eq] ++ burned b)
    /\ get_burnable_amount (w_config w) (w_bvault w - eb -
        (p_partner_base (w_pool w) + p_protocol_base (w_pool w) + p_creator_base (w_pool w) + fb))
        = Ok mb /\ b = Z.max 0 mb
    /\ w_supply w' = w_supply w - b /\ w_lp w' = lp /\ w_meta w' = Some m'
    /\ (exists da db, get_liquidity_distribution (w_config w) lp = Ok (da, db)
        /\ m' = mkMeta (m_partner m) (li_perm da) (li_unlocked da) (li_perm db) (li_unlocked db)
             (m_creator_lock_done m) (m_partner_lock_done m)
             (m_creator_claim_done m) (m_partner_claim_done m))
    /\ w_mint_auth w' = w_mint_auth w /\ w_escrow w' = w_escrow w
    /\ w_update_auth w' = w_update_auth w
    /\ w_positions w' = w_positions w /\ w_admins w' = w_admins w /\ w_operators w' = w_operators w.
Proof.
  intros H. unfold migrate_v1 in H.
  apply bind_ok in H. destruct H as (u0 & OK & H). apply require_ok in OK.
  apply bind_ok in H. destruct H as ([] & R & H). apply ready_ok in R.
  destruct R as (P & _ & O).
  apply bind_ok in H. destruct H as (m & M & H). apply ok_or_ok in M.
  apply bind_ok in H. destruct H as ([[[fb fq] eb] eq] & S & H). cbv zeta in H.
  apply bind_ok in H. destruct H as (w1 & W1 & H).
  apply bind_ok in H. destruct H as (w2 & W2 & H).
  apply bind_ok in H. destruct H as (w4 & W4 & H).
  apply bind_ok in H. destruct H as ([da db] & D & H).
  apply bind_ok in H. destruct H as ([[[pl pu] cl] cu] & V & H). apply Ok_inj in H.
  apply pay_base_eff in W1; auto. destruct W1 as (E1 & R1 & _). rewrite pool_set in E1.
  apply pay_quote_eff in W2; auto. destruct W2 as (E2 & R2 & _).
  rewrite (ef_pool _ _ _ _ E1) in E2.
  pose proof (eff_trans _ _ _ _ _ _ _ (eff_pool w _) (eff_trans _ _ _ _ _ _ _ E1 E2)) as E12.
  pose proof (rest_trans _ _ _ (rest_trans _ _ _ (rest_set_pool _ _ _ (rest_refl w)) R1) R2) as R12.
  pose proof (eff_set_pool _ _ _ _ (set_is_migrated (w_pool w2) 1) E12) as E3.
  apply burn_rest_eff in W4.
  destruct W4 as (b & mb & E4 & SU & BU & BM & _ & MA & ES & UA & ME & LP & PO & AD & OP).
  rewrite pool_set in E4, BU.
  pose proof (eff_trans _ _ _ _ _ _ _ E3 E4) as E5.
  rewrite (ef_pool _ _ _ _ E12) in E5, BU.
  assert (BV : w_bvault w2 = w_bvault w - eb).
  { rewrite (ef_base _ _ _ _ E12). simpl. unfold flow. simpl. lia. }
  assert (CF : w_config w2 = w_config w) by (apply E12).
  cbn [w_config w_bvault set_w_pool] in BU. rewrite BV, CF in BU.
  destruct R12 as [S1 S2 S3 S4 S5 S6 S7 S8 S9].
  cbn [w_supply w_mint_auth w_escrow w_update_auth w_meta w_lp w_positions w_admins w_operators
       set_w_pool] in *.
  apply v1_dist_eq in V. destruct V as (-> & -> & -> & ->).
  exists m. eexists. exists fb, fq, eb, eq, b, mb.
  split; [exact OK|]. split; [exact P|]. split; [exact O|]. split; [exact M|]. split; [exact S|].
  split. { subst w'. unfold migrated_pool. destruct E5 as [X1 X2 X3 X4 X5 X6 X7].
    constructor; auto.
    cbn [w_pool set_w_pool set_w_lp set_w_meta]. rewrite X1. reflexivity. }
  split; [exact BU|]. split; [exact BM|]. split; [subst w'; simpl; congruence|].
  split; [subst w'; reflexivity|]. split; [subst w'; reflexivity|].
  split. { exists da, db. split; auto. }
  subst w'. simpl. repeat (split; [congruence|]). congruence.
Qed.

Lemma migrate_v2_eff w x now w' : migrate_v2 w x now = Ok w' ->
  exists fb fq eb eq l2 b mb h,
    h = get_migration_handler 1 (c_migrated_collect_mode (w_config w))
    /\ p_progress (w_pool w) = 2 /\ c_migration_option (w_config w) = 1
    /\ migration_split w h = Ok (fb, fq, eb, eq)
    /\ (l2 = [] \/ l2 = [mkTransfer TBase PPool PDamm (x_d2b x); mkTransfer TQuote PPool PDamm (x_d2q x)]
                   /\ 0 <= x_d2b x /\ 0 <= x_d2q x /\ x_d1b x + x_d2b x <= eb /\ x_d1q x + x_d2q x <= eq)
    /\ 0 <= x_d1b x <= eb /\ 0 <= x_d1q x <= eq
    /\ eff w w' (migrated_pool (w_pool w) fb fq)
         ([mkTransfer TBase PPool PDamm (x_d1b x); mkTransfer TQuote PPool PDamm (x_d1q x)]
          ++ l2 ++ burned b)
    /\ get_burnable_amount (w_config w) (w_bvault w - x_d1b x + net TBase l2 -
        (p_partner_base (w_pool w) + p_protocol_base (w_pool w) + p_creator_base (w_pool w) + fb))
        = Ok mb /\ b = Z.max 0 mb
    /\ w_supply w' = w_supply w - b /\ w_lp w' = w_lp w /\ w_meta w' = w_meta w
    /\ w_mint_auth w' = w_mint_auth w /\ w_escrow w' = w_escrow w
    /\ w_update_auth w' = w_update_auth w
    /\ w_admins w' = w_admins w /\ w_operators w' = w_operators w.
Proof.
  intros H. unfold migrate_v2 in H.
  apply bind_ok in H. destruct H as (u0 & _ & H).
  apply bind_ok in H. destruct H as ([] & R & H). cbv zeta in H.
  apply ready_ok in R. destruct R as (P & _ & O).
  apply bind_ok in H. destruct H as (u2 & _ & H).
  set (h := get_migration_handler 1 (c_migrated_collect_mode (w_config w))) in *.
  apply bind_ok in H. destruct H as ([[[fb fq] eb] eq] & S & H).
  apply bind_ok in H. destruct H as ([[price liq] dead] & INF & H).
  apply bind_ok in H. destruct H as ([pa cr] & D & H).
  apply bind_ok in H. destruct H as (tp & TP & H).
  apply bind_ok in H. destruct H as (tc & TC & H).
  destruct (if tc <? tp then _ else _) as [[[first second] o1] o2] eqn:OR.
  apply bind_ok in H. destruct H as (t1 & T1 & H).
  apply bind_ok in H. destruct H as (liq1 & L1 & H).
  apply bind_ok in H. destruct H as (vp1 & V1 & H).
  apply bind_ok in H. destruct H as (u3 & G1 & H). apply require_ok in G1.
  apply bind_ok in H. destruct H as (w1 & W1 & H).
  apply bind_ok in H. destruct H as (w2 & W2 & H).
  apply bind_ok in H. destruct H as (lb & LB & H). apply ssub_ok in LB. destruct LB as (-> & LB).
  apply bind_ok in H. destruct H as (lq & LQ & H). apply ssub_ok in LQ. destruct LQ as (-> & LQ).
  apply bind_ok in H. destruct H as (liq2 & L2 & H).
  apply bind_ok in H. destruct H as (w3 & W3 & H).
  apply bind_ok in H. destruct H as (w6 & W6 & H). apply Ok_inj in H.
  apply pay_base_eff in W1; auto. destruct W1 as (E1 & R1 & _). rewrite pool_set in E1.
  apply pay_quote_eff in W2; auto. destruct W2 as (E2 & R2 & _).
  rewrite (ef_pool _ _ _ _ E1) in E2.
  pose proof (eff_trans _ _ _ _ _ _ _ (eff_pool w _) (eff_trans _ _ _ _ _ _ _ E1 E2)) as E12.
  pose proof (rest_trans _ _ _ (rest_trans _ _ _ (rest_set_pool _ _ _ (rest_refl w)) R1) R2) as R12.
  assert (M3 : exists l2,
     (l2 = [] \/ l2 = [mkTransfer TBase PPool PDamm (x_d2b x); mkTransfer TQuote PPool PDamm (x_d2q x)]
                   /\ 0 <= x_d2b x /\ 0 <= x_d2q x /\ x_d1b x + x_d2b x <= eb /\ x_d1q x + x_d2q x <= eq)
     /\ eff w2 w3 (w_pool w2) l2
     /\ w_supply w3 = w_supply w2 /\ w_lp w3 = w_lp w2 /\ w_meta w3 = w_meta w2
     /\ w_mint_auth w3 = w_mint_auth w2 /\ w_escrow w3 = w_escrow w2
     /\ w_update_auth w3 = w_update_auth w2
     /\ w_admins w3 = w_admins w2 /\ w_operators w3 = w_operators w2).
  { destruct (0 <? liq2).
    - apply bind_ok in W3. destruct W3 as (s2 & _ & W3).
      apply bind_ok in W3. destruct W3 as (b1 & _ & W3).
      apply bind_ok in W3. destruct W3 as (b2 & _ & W3).
      apply bind_ok in W3. destruct W3 as (b3 & G & W3). apply require_ok in G.
      apply bind_ok in W3. destruct W3 as (y1 & Y1 & W3).
      apply bind_ok in W3. destruct W3 as (y2 & Y2 & W3). apply Ok_inj in W3.
      apply pay_base_eff in Y1; auto. destruct Y1 as (Y1 & Q1 & _).
      apply pay_quote_eff in Y2; auto. destruct Y2 as (Y2 & Q2 & _).
      rewrite (ef_pool _ _ _ _ Y1) in Y2.
      pose proof (eff_trans _ _ _ _ _ _ _ Y1 Y2) as Y. pose proof (rest_trans _ _ _ Q1 Q2) as Q.
      eexists. split; [right; split; [reflexivity|lia]|]. subst w3. split.
      + destruct Y. constructor; auto.
      + destruct Q. simpl. repeat (split; [assumption|]). assumption.
    - apply Ok_inj in W3. exists []. split; [left; reflexivity|]. subst w3. split.
      + destruct (eff_refl w2). constructor; auto.
      + repeat (split; [reflexivity|]). reflexivity. }
  destruct M3 as (l2 & L2' & E3 & N1 & N2 & N3 & N4 & N5 & N6 & N7 & N8).
  rewrite (ef_pool _ _ _ _ E12) in E3.
  pose proof (eff_trans _ _ _ _ _ _ _ E12 E3) as E123.
  pose proof (eff_set_pool _ _ _ _ (set_is_migrated (w_pool w3) 1) E123) as E4.
  apply burn_rest_eff in W6.
  destruct W6 as (b & mb & E5 & SU & BU & BM & _ & MA & ES & UA & ME & LP & PO & AD & OP).
  rewrite pool_set in E5, BU.
  pose proof (eff_trans _ _ _ _ _ _ _ E4 E5) as E6.
  rewrite (ef_pool _ _ _ _ E123) in E6, BU.
  assert (BV : w_bvault w3 = w_bvault w - x_d1b x + net TBase l2).
  { rewrite (ef_base _ _ _ _ E123). rewrite !net_app. simpl. unfold flow. simpl. lia. }
  assert (CF : w_config w3 = w_config w) by (apply E123).
  cbn [w_config w_bvault set_w_pool] in BU. rewrite BV, CF in BU.
  destruct R12 as [S1 S2 S3 S4 S5 S6 S7 S8 S9].
  cbn [w_supply w_mint_auth w_escrow w_update_auth w_meta w_lp w_positions w_admins w_operators
       set_w_pool] in *.
  exists fb, fq, eb, eq, l2, b, mb, h.
  split; [reflexivity|]. split; [exact P|]. split; [exact O|]. split; [exact S|].
  split; [exact L2'|]. split; [lia|]. split; [lia|].
  split. { subst w'. unfold migrated_pool. rewrite <- app_assoc in E6.
    destruct E6 as [X1 X2 X3 X4 X5 X6 X7].
    constructor; auto. cbn [w_pool set_w_pool]. rewrite X1. reflexivity. }
  split; [exact BU|]. split; [exact BM|]. subst w'. simpl. repeat (split; [congruence|]). congruence.
Qed.

(** ** LP tokens of the migrated DAMM v1 pool *)
Lemma pay_lp_eff w to a w' : pay_lp w to a = Ok w' ->
  eff w w' (w_pool w) [mkTransfer TLp PPool to a] /\ a <= w_lp w /\ w_lp w' = w_lp w - a
  /\ w_supply w' = w_supply w /\ w_mint_auth w' = w_mint_auth w
  /\ w_update_auth w' = w_update_auth w /\ w_meta w' = w_meta w /\ w_escrow w' = w_escrow w
  /\ w_positions w' = w_positions w /\ w_admins w' = w_admins w /\ w_operators w' = w_operators w.
Proof.
  unfold pay_lp. intros H. apply bind_ok in H. destruct H as (u & L & H). apply require_ok in L.
  apply Ok_inj in H. subst w'. split.
  { constructor; simpl; auto; unfold flow; simpl; lia. }
  split; [lia|]. repeat (split; [reflexivity|]). reflexivity.
Qed.

(** [m'] differs from [m] in completion flags that were not set and are set now. *)
Record meta_progress (m m' : v1meta) : Prop := {
  mp_partner : m_partner m' = m_partner m;
  mp_pl : m_partner_locked m' = m_partner_locked m;
  mp_pu : m_partner_liq m' = m_partner_liq m;
  mp_cl : m_creator_locked m' = m_creator_locked m;
  mp_cu : m_creator_liq m' = m_creator_liq m;
  mp_f1 : m_creator_lock_done m = 1 -> m_creator_lock_done m' = 1;
  mp_f2 : m_partner_lock_done m = 1 -> m_partner_lock_done m' = 1;
  mp_f3 : m_creator_claim_done m = 1 -> m_creator_claim_done m' = 1;
  mp_f4 : m_partner_claim_done m = 1 -> m_partner_claim_done m' = 1
}.

Lemma lock_lp_eff w o w' : lock_lp w o = Ok w' ->
  exists m m' a, p_progress (w_pool w) = 3 /\ w_meta w = Some m /\ w_meta w' = Some m'
    /\ meta_progress m m' /\ 0 <> a
    /\ ((o = m_partner m /\ o = p_creator (w_pool w) /\ a = m_partner_locked m + m_creator_locked m
          /\ m_partner_lock_done m <> 1 /\ m_creator_lock_done m <> 1
          /\ m_partner_lock_done m' = 1 /\ m_creator_lock_done m' = 1)
        \/ (o = m_partner m /\ o <> p_creator (w_pool w) /\ a = m_partner_locked m
          /\ m_partner_lock_done m <> 1 /\ m_partner_lock_done m' = 1
          /\ m_creator_lock_done m' = m_creator_lock_done m)
        \/ (o <> m_partner m /\ o = p_creator (w_pool w) /\ a = m_creator_locked m
          /\ m_creator_lock_done m <> 1 /\ m_creator_lock_done m' = 1
          /\ m_partner_lock_done m' = m_partner_lock_done m))
    /\ m_partner_claim_done m' = m_partner_claim_done m
    /\ m_creator_claim_done m' = m_creator_claim_done m
    /\ eff w w' (w_pool w) [mkTransfer TLp PPool (PLock o) a] /\ w_lp w' = w_lp w - a
    /\ w_supply w' = w_supply w /\ w_mint_auth w' = w_mint_auth w
    /\ w_update_auth w' = w_update_auth w /\ w_escrow w' = w_escrow w
    /\ w_positions w' = w_positions w /\ w_admins w' = w_admins w /\ w_operators w' = w_operators w.
Proof.
  unfold lock_lp. intros H.
  apply bind_ok in H. destruct H as (u & P & H). apply require_ok in P. unfold CreatedPool in P.
  apply bind_ok in H. destruct H as (m & M & H). apply ok_or_ok in M.
  apply bind_ok in H. destruct H as ([m' a] & R & H).
  apply pay_lp_eff in H. destruct H as (E & _ & LP & SU & MA & UA & ME & ES & PO & AD & OP).
  exists m, m', a.
  assert (Q : meta_progress m m' /\ 0 <> a
    /\ ((o = m_partner m /\ o = p_creator (w_pool w) /\ a = m_partner_locked m + m_creator_locked m
          /\ m_partner_lock_done m <> 1 /\ m_creator_lock_done m <> 1
          /\ m_partner_lock_done m' = 1 /\ m_creator_lock_done m' = 1)
        \/ (o = m_partner m /\ o <> p_creator (w_pool w) /\ a = m_partner_locked m
          /\ m_partner_lock_done m <> 1 /\ m_partner_lock_done m' = 1
          /\ m_creator_lock_done m' = m_creator_lock_done m)
        \/ (o <> m_partner m /\ o = p_creator (w_pool w) /\ a = m_creator_locked m
          /\ m_creator_lock_done m <> 1 /\ m_creator_lock_done m' = 1
          /\ m_partner_lock_done m' = m_partner_lock_done m))
    /\ m_partner_claim_done m' = m_partner_claim_done m
    /\ m_creator_claim_done m' = m_creator_claim_done m).
  { clear - R. unfold lock_as_self, lock_as_partner, lock_as_creator in R.
    destruct (o =? m_partner m) eqn:O1; destruct (o =? p_creator (w_pool w)) eqn:O2;
    try discriminate R;
    (apply bind_ok in R; destruct R as (u & A & R); apply require_ok in A);
    (apply bind_ok in R; destruct R as (u2 & B & R));
    try apply require_ok in B; try apply sadd_ok in B;
    try (apply bind_ok in R; destruct R as (u3 & B3 & R); apply require_ok in B3);
    apply Ok_inj in R; apply pair_inj in R; destruct R as (<- & <-); simpl.
    all: split; [constructor; simpl; auto|]; split; [lia|]; split; [|auto].
    - left. repeat split; lia.
    - right; left. repeat split; lia.
    - right; right. repeat split; lia. }
  destruct Q as (Q1 & Q2 & Q3 & Q4 & Q5).
  split; [lia|]. split; [exact M|]. split; [exact ME|]. split; [exact Q1|]. split; [exact Q2|].
  split; [exact Q3|]. split; [exact Q4|]. split; [exact Q5|].
  split. { destruct E. constructor; auto. }
  repeat (split; [assumption|]). assumption.
Qed.

Lemma claim_lp_eff w o w' : claim_lp w o = Ok w' ->
  exists m m' a, p_progress (w_pool w) = 3 /\ w_meta w = Some m /\ w_meta w' = Some m'
    /\ meta_progress m m' /\ 0 <> a
    /\ ((o = m_partner m /\ o = p_creator (w_pool w) /\ a = m_partner_liq m + m_creator_liq m
          /\ m_partner_claim_done m <> 1 /\ m_creator_claim_done m <> 1
          /\ m_partner_claim_done m' = 1 /\ m_creator_claim_done m' = 1)
        \/ (o = m_partner m /\ o <> p_creator (w_pool w) /\ a = m_partner_liq m
          /\ m_partner_claim_done m <> 1 /\ m_partner_claim_done m' = 1
          /\ m_creator_claim_done m' = m_creator_claim_done m)
        \/ (o <> m_partner m /\ o = p_creator (w_pool w) /\ a = m_creator_liq m
          /\ m_creator_claim_done m <> 1 /\ m_creator_claim_done m' = 1
          /\ m_partner_claim_done m' = m_partner_claim_done m))
    /\ m_partner_lock_done m' = m_partner_lock_done m
    /\ m_creator_lock_done m' = m_creator_lock_done m
    /\ eff w w' (w_pool w) [mkTransfer TLp PPool (PKey o) a] /\ w_lp w' = w_lp w - a
    /\ w_supply w' = w_supply w /\ w_mint_auth w' = w_mint_auth w
    /\ w_update_auth w' = w_update_auth w /\ w_escrow w' = w_escrow w
    /\ w_positions w' = w_positions w /\ w_admins w' = w_admins w /\ w_operators w' = w_operators w.
Proof.
  unfold claim_lp. intros H.
  apply bind_ok in H. destruct H as (u & P & H). apply require_ok in P. unfold CreatedPool in P.
  apply bind_ok in H. destruct H as (m & M & H). apply ok_or_ok in M.
  apply bind_ok in H. destruct H as ([m' a] & R & H).
  apply pay_lp_eff in H. destruct H as (E & _ & LP & SU & MA & UA & ME & ES & PO & AD & OP).
  exists m, m', a.
  assert (Q : meta_progress m m' /\ 0 <> a
    /\ ((o = m_partner m /\ o = p_creator (w_pool w) /\ a = m_partner_liq m + m_creator_liq m
          /\ m_partner_claim_done m <> 1 /\ m_creator_claim_done m <> 1
          /\ m_partner_claim_done m' = 1 /\ m_creator_claim_done m' = 1)
        \/ (o = m_partner m /\ o <> p_creator (w_pool w) /\ a = m_partner_liq m
          /\ m_partner_claim_done m <> 1 /\ m_partner_claim_done m' = 1
          /\ m_creator_claim_done m' = m_creator_claim_done m)
        \/ (o <> m_partner m /\ o = p_creator (w_pool w) /\ a = m_creator_liq m
          /\ m_creator_claim_done m <> 1 /\ m_creator_claim_done m' = 1
          /\ m_partner_claim_done m' = m_partner_claim_done m))
    /\ m_partner_lock_done m' = m_partner_lock_done m
    /\ m_creator_lock_done m' = m_creator_lock_done m).
  { clear - R. unfold claim_as_self, claim_as_partner, claim_as_creator in R.
    destruct (o =? m_partner m) eqn:O1; destruct (o =? p_creator (w_pool w)) eqn:O2;
    try discriminate R;
    (apply bind_ok in R; destruct R as (u & A & R); apply require_ok in A);
    (apply bind_ok in R; destruct R as (u2 & B & R));
    try apply require_ok in B; try apply sadd_ok in B;
    try (apply bind_ok in R; destruct R as (u3 & B3 & R); apply require_ok in B3);
    apply Ok_inj in R; apply pair_inj in R; destruct R as (<- & <-); simpl.
    all: split; [constructor; simpl; auto|]; split; [lia|]; split; [|auto].
    - left. repeat split; lia.
    - right; left. repeat split; lia.
    - right; right. repeat split; lia. }
  destruct Q as (Q1 & Q2 & Q3 & Q4 & Q5).
  split; [lia|]. split; [exact M|]. split; [exact ME|]. split; [exact Q1|]. split; [exact Q2|].
  split; [exact Q3|]. split; [exact Q4|]. split; [exact Q5|].
  split. { destruct E. constructor; auto. }
  repeat (split; [assumption|]). assumption.
Qed.

(** ** Swaps: what the accounts other than the pool see *)
Lemma recv_base_eff w k a w' : recv_base w (PKey k) a = Ok w' ->
  eff w w' (w_pool w) [mkTransfer TBase (PKey k) PPool a] /\ rest_same w w'.
Proof.
  unfold recv_base. intros H. apply bind_ok in H. destruct H as (b & B & H). apply sadd_ok in B.
  apply Ok_inj in H. subst w'. split; [|constructor; reflexivity].
  constructor; simpl; auto; unfold flow; simpl; lia.
Qed.
Lemma recv_quote_eff w k a w' : recv_quote w (PKey k) a = Ok w' ->
  eff w w' (w_pool w) [mkTransfer TQuote (PKey k) PPool a] /\ rest_same w w'.
Proof.
  unfold recv_quote. intros H. apply bind_ok in H. destruct H as (b & B & H). apply sadd_ok in B.
  apply Ok_inj in H. subst w'. split; [|constructor; reflexivity].
  constructor; simpl; auto; unfold flow; simpl; lia.
Qed.
