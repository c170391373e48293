(** * C74: no pool gets stuck. From every reachable state anybody with enough quote tokens can bring
    the pool to its migrated state. *)
From Coq Require Import ZArith QArith List Bool Lia ZifyBool.
From Verif Require Import Base MathModel CurveModel FeeModel ConfigModel PoolModel TxModel
  SystemModel Fixtures Spec Lib CurveProofs CurveLoops Potential CalcProofs ConfigProofs FeeProofs
  SwapProofs InvProofs InvOps InvReach FixturesReach PropSwap Effects Frame Bounds PropSafe
  PropPart Live PropSell PropBuy PropMig.
Import ListNotations.
Open Scope Z_scope.
#[local] Arguments Z.pow : simpl never.
#[local] Arguments Z.testbit : simpl never.

(** ** Specification *)

(** Instructions that need no particular signer: a purchase by [user], and the steps of the
    migration that anybody may send. *)
Definition open_to_all (user : Z) (o : op) : Prop :=
  match o with
  | OSwap a => sa_user a = user /\ sa_dir a = QuoteToBase /\ sa_referral a = None
  | OCreateLocker | OCreateMetadata | OMigrateV1 _ _ | OMigrateV2 _ _ => True
  | _ => False
  end.

(** What a purchase that certainly completes the curve offers, and the most it may take. *)
Definition enough (w : world) : Z := 100 * (c_threshold (w_config w) + 1).
Definition enough_room (w : world) : Prop :=
  p_quote (w_pool w) < c_threshold (w_config w) ->
  enough w + enough w / 90000 + 31000 <= U64_MAX /\
  purchase_room w (enough w + enough w / 90000 + 31000).

(** The time of the instructions: a valid clock, after the pool's activation, and with room for
    the longest vesting (two years). *)
Definition time_ok (w : world) (slot now : Z) : Prop :=
  0 <= slot <= U64_MAX /\ 65535 <= now /\ now + 63072000 <= U64_MAX
  /\ p_activation (w_pool w) <= point_of (w_config w) slot now.

(** All instructions succeed. *)
Fixpoint succeed (w : world) (ops : list op) (w' : world) : Prop :=
  match ops with
  | [] => w' = w
  | o :: r => exists w1, exec w o = Ok w1 /\ succeed w1 r w'
  end.

Lemma succeed_app a : forall w b w1 w2, succeed w a w1 -> succeed w1 b w2 -> succeed w (a ++ b) w2.
Proof.
  induction a as [|o a IH]; cbn; intros w b w1 w2 A B; [subst; exact B|].
  destruct A as (v & E & A). exists v. split; [exact E|]. eapply IH; eauto.
Qed.
Lemma succeed_reach ops : forall w w', reachable w -> succeed w ops w' -> reachable w' /\ w_config w' = w_config w.
Proof.
  induction ops as [|o ops IH]; cbn; intros w w' R S; [subst; auto|].
  destruct S as (v & E & S). pose proof (reachable_exec _ _ _ R E) as R1.
  destruct (IH _ _ R1 S) as (R2 & C). split; [exact R2|]. rewrite C.
  destruct (exec_frame _ _ _ (reachable_inv _ R) E) as (F & _). apply F.
Qed.
Lemma succeed_run ops : forall w w', succeed w ops w' -> run w ops = w'.
Proof.
  induction ops as [|o ops IH]; intros w w' S; [symmetry; exact S|].
  destruct S as (v & E & S). change (run w (o :: ops)) with (run (step w o) ops). unfold step. rewrite E. apply IH. exact S.
Qed.

(** ** The three stages *)
Lemma completes w user slot now : reachable w -> time_ok w slot now -> enough_room w ->
  p_progress (w_pool w) = 0 ->
  exists a w1, open_to_all user (OSwap a) /\ exec w (OSwap a) = Ok w1 /\ p_progress (w_pool w1) <> 0.
Proof.
  intros R (S & N1 & N2 & AC) RO P. pose proof (reachable_inv _ R) as I.
  pose proof (proj1 (iv_complete _ I) P) as OP. destruct (RO OP) as (U & RM).
  pose proof (ok_threshold _ (created_cfg_ok _ (iv_created _ I))) as TH.
  set (a := mkSwapArgs user None QuoteToBase 1 (enough w) 0 slot now plain_view).
  assert (E0 : 0 < enough w) by (unfold enough; lia).
  assert (Q0 : 0 <= enough w / 90000) by (apply Z.div_pos; lia).
  set (active := limiter_active (w_config w) (p_activation (w_pool w)) (point_of (w_config w) slot now) QuoteToBase).
  assert (M : exists m, most_paid w a m /\ purchase_room w m).
  { destruct (limiter_dec (w_config w) (p_activation (w_pool w)) (point_of (w_config w) slot now) QuoteToBase) as [L|L].
    - eexists. split; [split; [intros _; reflexivity|intros X; contradiction]|]. exact RM.
    - eexists. split; [split; [intros X; contradiction|intros _; reflexivity]|]. cbn [a sa_amount0].
      unfold purchase_room in *. destruct RM as (RM1 & RM2). split; [lia|].
      destruct (c_collect_fee_mode (w_config w) =? 0); [lia|exact RM2]. }
  destruct M as (m & MP & RM').
  destruct (C53_purchase_succeeds w a m R OP) as (w1 & EX & CO); auto.
  - repeat split; reflexivity.
  - repeat split; cbn; lia.
  - intros _. split; [reflexivity|]. split; [reflexivity|]. intros i [].
  - exists a, w1. split; [repeat split; reflexivity|]. split; [exact EX|]. apply CO. cbn. unfold enough. lia.
Qed.

Lemma metadata_pool w w' : exec w OCreateMetadata = Ok w' -> w_pool w' = w_pool w.
Proof.
  unfold exec. intros H. apply bind_ok in H. destruct H as (? & _ & H). unfold create_v1_metadata in H.
  repeat (apply bind_ok in H; destruct H as (? & _ & H)). apply Ok_inj in H. subst w'. reflexivity.
Qed.

Definition preparing (o : op) : Prop := o = OCreateLocker \/ o = OCreateMetadata.
Lemma prepares w : reachable w -> p_progress (w_pool w) <> 0 -> p_progress (w_pool w) <> 3 ->
  exists ops w', (length ops <= 2)%nat /\ Forall preparing ops /\ succeed w ops w'
    /\ p_progress (w_pool w') = 2 /\ (c_migration_option (w_config w') = 0 -> exists m, w_meta w' = Some m).
Proof.
  intros R P0 P3. pose proof (reachable_inv _ R) as I.
  assert (L : exists ops w1, (length ops <= 1)%nat /\ Forall preparing ops /\ succeed w ops w1
    /\ p_progress (w_pool w1) = 2).
  { pose proof (iv_progress _ I) as PR.
    assert (C : c_threshold (w_config w) <= p_quote (w_pool w)).
    { destruct (Z_lt_le_dec (p_quote (w_pool w)) (c_threshold (w_config w))) as [X|X]; [|exact X].
      apply (iv_complete _ I) in X. contradiction. }
    destruct (Z.eq_dec (p_progress (w_pool w)) 1) as [P1|P1].
    - destruct (C52_ready_for_migration w R C) as (H & _). destruct (H P1) as (w1 & E & P2).
      exists [OCreateLocker], w1. split; [cbn; lia|]. split; [constructor; [left; reflexivity|constructor]|]. split; [exists w1; split; auto; reflexivity|exact P2].
    - exists [], w. split; [cbn; lia|]. split; [constructor|]. split; [reflexivity|lia]. }
  destruct L as (ops & w1 & LE & FA & SU & P2). destruct (succeed_reach _ _ _ R SU) as (R1 & C1).
  destruct (Z.eq_dec (c_migration_option (w_config w1)) 0) as [O|O].
  - destruct (w_meta w1) as [m|] eqn:M.
    + exists ops, w1. split; [lia|]. split; [exact FA|]. split; [exact SU|]. split; [exact P2|]. eauto.
    + pose proof (reachable_inv _ R1) as I1.
      assert (C : c_threshold (w_config w1) <= p_quote (w_pool w1)).
      { destruct (Z_lt_le_dec (p_quote (w_pool w1)) (c_threshold (w_config w1))) as [X|X]; [|exact X].
        apply (iv_complete _ I1) in X. lia. }
      destruct (C52_ready_for_migration w1 R1 C) as (_ & H). destruct (H O M) as (w2 & m & E & M2).
      exists (ops ++ [OCreateMetadata]), w2. rewrite app_length. split; [cbn; lia|].
      split; [apply Forall_app; split; [exact FA|constructor; [right; reflexivity|constructor]]|].
      split; [eapply succeed_app; [exact SU|]; exists w2; split; auto; reflexivity|].
      split; [rewrite (metadata_pool _ _ E); exact P2|]. eauto.
  - exists ops, w1. split; [lia|]. split; [exact FA|]. split; [exact SU|]. split; [exact P2|]. contradiction.
Qed.

(** What the target of the migration answers: DAMM v1 mints some LP tokens; DAMM v2 takes the
    tokens that its formulas ask for the liquidity it is given, once for each position. *)
Definition fair_answer (c : config) (o : op) : Prop :=
  match o with
  | OMigrateV2 x _ =>
      let h := if c_migrated_collect_mode c =? 2 then Compounding else Concentrated in
      exists price liq1 liq2,
        Z.abs (price - c_mig_price c) * 100 <= Z.max price (c_mig_price c)
        /\ damm_takes h price liq1 (x_d1b x) (x_d1q x)
        /\ (x_rbase x, x_rquote x, x_rliq x) = (x_d1b x, x_d1q x, liq1)
        /\ damm_adds h price (x_d1b x) (x_d1q x) liq1 liq2 (x_d2b x) (x_d2q x)
  | OMigrateV1 _ lp => 0 <= lp
  | _ => True
  end.

Lemma takes_exist h price L : 0 < price -> exists b q, damm_takes h price L b q.
Proof.
  intros P. assert (M : 0 < price * MAX_SQRT_PRICE) by (apply Z.mul_pos_pos; [exact P|reflexivity]).
  destruct h; cbn; unfold range_base, range_quote, product_base, product_quote;
    eexists (cdiv _ _), (cdiv _ _); (split; apply ceil_frac_cdiv; first [reflexivity|exact P|exact M]).
Qed.
Lemma adds_exist h price rb rq rl L : 0 < price -> 0 < rl -> exists b q, damm_adds h price rb rq rl L b q.
Proof.
  intros P RL. assert (M : 0 < price * MAX_SQRT_PRICE) by (apply Z.mul_pos_pos; [exact P|reflexivity]).
  destruct h; cbn; unfold range_base, range_quote;
    eexists (cdiv _ _), (cdiv _ _); (split; apply ceil_frac_cdiv; first [reflexivity|exact RL|exact M]).
Qed.

Lemma migrates w user now lp : reachable w -> p_progress (w_pool w) = 2 ->
  (c_migration_option (w_config w) = 0 -> exists m, w_meta w = Some m) ->
  0 <= now -> now + 63072000 <= U64_MAX -> 0 <= lp <= U64_MAX ->
  exists o w', open_to_all user o /\ fair_answer (w_config w) o /\ exec w o = Ok w' /\ p_progress (w_pool w') = 3.
Proof.
  intros R P ME N0 N1 LP. pose proof (reachable_inv _ R) as I. pose proof (iv_created _ I) as CR.
  pose proof (ok_opt _ (created_cfg_ok _ CR)) as MO.
  destruct (Z.eq_dec (c_migration_option (w_config w)) 0) as [O|O].
  - destruct (ME O) as (m & M). destruct (C52_damm_v1_migration_succeeds w lp m R P O M LP) as (w' & E & P3 & _).
    exists (OMigrateV1 true lp), w'. split; [exact Logic.I|]. split; [cbn; lia|]. auto.
  - assert (O1 : c_migration_option (w_config w) = 1) by lia.
    destruct (C52_damm_v2_migration_succeeds w now R P O1 N0 N1) as (price & liq1 & L0 & NEAR & _ & H).
    pose proof (co_start _ _ (ok_curve _ (created_cfg_ok _ CR))) as SP.
    pose proof (co_mig_lo _ _ (ok_curve _ (created_cfg_ok _ CR))) as ML.
    assert (MP : 0 < c_mig_price (w_config w)) by lia.
    assert (PP : 0 < price) by (clear - NEAR MP; destruct (Z.max_spec price (c_mig_price (w_config w))); lia).
    destruct (takes_exist (if c_migrated_collect_mode (w_config w) =? 2 then Compounding else Concentrated) price liq1 PP)
      as (d1b & d1q & T). destruct (H _ _ T) as (liq2 & L2 & H2).
    destruct (adds_exist (if c_migrated_collect_mode (w_config w) =? 2 then Compounding else Concentrated)
      price d1b d1q liq1 liq2 PP L0) as (d2b & d2q & T2).
    destruct (H2 _ _ T2) as (w' & E & P3 & _). eexists _, w'. split; [|split; [|split; [exact E|exact P3]]].
    + exact Logic.I.
    + cbn. exists price, liq1, liq2. auto.
Qed.

(** From every reachable state, at any time from the activation on, somebody with enough quote
    tokens and no special rights can bring the pool to migration with at most four instructions,
    whatever LP tokens DAMM v1 mints. *)
Theorem C74_can_graduate : forall w user slot now lp,
  reachable w -> time_ok w slot now -> enough_room w -> 0 <= lp <= U64_MAX ->
  exists ops w', (length ops <= 4)%nat /\ Forall (open_to_all user) ops
    /\ Forall (fair_answer (w_config w)) ops
    /\ succeed w ops w' /\ p_progress (w_pool w') = 3.
Proof.
  intros w user slot now lp R T RO LP. pose proof (reachable_inv _ R) as I. pose proof T as (_ & N1 & N2 & _).
  destruct (Z.eq_dec (p_progress (w_pool w)) 3) as [P3|P3].
  { exists [], w. split; [cbn; lia|]. split; [constructor|]. split; [constructor|]. split; [reflexivity|exact P3]. }
  assert (S1 : exists ops w1, (length ops <= 1)%nat /\ Forall (open_to_all user) ops /\ Forall (fair_answer (w_config w)) ops
     /\ succeed w ops w1 /\ p_progress (w_pool w1) <> 0).
  { destruct (Z.eq_dec (p_progress (w_pool w)) 0) as [P0|P0].
    - destruct (completes w user slot now R T RO P0) as (a & w1 & OA & E & P1).
      exists [OSwap a], w1. split; [cbn; lia|]. split; [constructor; auto|]. split; [repeat constructor|].
      split; [exists w1; split; auto; reflexivity|exact P1].
    - exists [], w. split; [cbn; lia|]. split; [constructor|]. split; [constructor|]. split; [reflexivity|exact P0]. }
  destruct S1 as (o1 & w1 & L1 & F1 & G1 & S1 & P1). destruct (succeed_reach _ _ _ R S1) as (R1 & C1).
  destruct (Z.eq_dec (p_progress (w_pool w1)) 3) as [Q3|Q3].
  { exists o1, w1. split; [lia|]. auto. }
  destruct (prepares w1 R1 P1 Q3) as (o2 & w2 & L2 & F2 & S2 & P2 & M2).
  destruct (succeed_reach _ _ _ R1 S2) as (R2 & C2).
  destruct (migrates w2 user now lp R2 P2 M2) as (o & w3 & OA & FA & E & PF); try lia.
  exists ((o1 ++ o2) ++ [o]), w3. rewrite !app_length. split; [cbn; lia|].
  split.
  { apply Forall_app. split; [apply Forall_app; split; [exact F1|]|constructor; [exact OA|constructor]].
    eapply Forall_impl; [|exact F2]. intros x [->| ->]; exact Logic.I. }
  split.
  { apply Forall_app. split; [apply Forall_app; split; [exact G1|]|constructor; [|constructor]].
    - eapply Forall_impl; [|exact F2]. intros x [->| ->]; exact Logic.I.
    - rewrite <- C1, <- C2. exact FA. }
  split; [|exact PF]. eapply succeed_app; [eapply succeed_app; eauto|]. exists w3. split; [exact E|reflexivity].
Qed.

(** ** Cases *)

(** Pool A after some trading; pool D with its rate limiter in force; and pool B (DAMM v1). *)
Example C74_case_A : reachable (run wA histA1) /\ time_ok (run wA histA1) 2000 1700000500
  /\ enough_room (run wA histA1) /\ p_progress (w_pool (run wA histA1)) = 0.
Proof.
  split; [apply reachA|]. unfold time_ok, enough_room, purchase_room.
  vm_compute. repeat split; intros; discriminate.
Qed.
Example C74_case_B : reachable (run wB []) /\ time_ok (run wB []) 1200 1700000100
  /\ enough_room (run wB []) /\ c_migration_option (w_config wB) = 0.
Proof.
  split; [apply (reachB [])|]. unfold time_ok, enough_room, purchase_room.
  vm_compute. repeat split; intros; discriminate.
Qed.
Example C74_case_D : reachable (run wD []) /\ time_ok (run wD []) 1020 1700000010 /\ enough_room (run wD []).
Proof.
  split; [apply (reachD [])|]. unfold time_ok, enough_room, purchase_room.
  vm_compute. repeat split; intros; discriminate.
Qed.

(** The theorem applied to pool A. *)
Example C74_case_applied : exists ops w', (length ops <= 4)%nat /\ succeed (run wA histA1) ops w'
  /\ p_progress (w_pool w') = 3.
Proof.
  destruct C74_case_A as (R & T & E & _).
  destruct (C74_can_graduate _ 777 _ _ 0 R T E ltac:(unfold U64_MAX; lia)) as (ops & w' & L & _ & _ & S & P).
  eauto.
Qed.

Print Assumptions C74_can_graduate.
