(** * Accepted configs: C26, C27, C37, C38, C50. *)
From Coq Require Import ZArith QArith List Bool Lia ZifyBool Lqa Sorted.
From Verif Require Import Base MathModel CurveModel FeeModel ConfigModel PoolModel TxModel
  SystemModel Spec Lib CurveProofs CurveLoops Potential CalcProofs ConfigProofs FeeProofs
  InvProofs InvOps InvReach Fixtures FixturesReach.
Import ListNotations.
Open Scope Z_scope.
#[local] Arguments Z.pow : simpl never.

(** ** C26 *)
Record percentages_ok (c : config) : Prop := {
  po_pp : 0 <= c_partner_perm_pct c; po_pl : 0 <= c_partner_liq_pct c;
  po_cp : 0 <= c_creator_perm_pct c; po_cl : 0 <= c_creator_liq_pct c;
  po_pv : 0 <= vi_percentage (c_partner_vesting c);
  po_cv : 0 <= vi_percentage (c_creator_vesting c);
  po_sum : c_partner_perm_pct c + c_partner_liq_pct c + vi_percentage (c_partner_vesting c)
           + c_creator_perm_pct c + c_creator_liq_pct c + vi_percentage (c_creator_vesting c) = 100
}.

Lemma created_pct c : created c -> percentages_ok c.
Proof.
  intros H. apply created_inv in H.
  destruct H as (q & sup & spl & now & mig & sb & ba & fl & pre & post & qm & fc & lr & qa & bps
                 & T & _ & B).
  pose proof (cb_valid _ _ _ _ _ _ _ _ _ _ _ _ _ _ _ _ B) as V.
  apply validate_inv in V. destruct V as (_ & V). pose proof (va_pct _ _ _ V) as P.
  pose proof (pt_pl _ T). pose proof (pt_pp _ T). pose proof (pt_cl _ T). pose proof (pt_cp _ T).
  destruct (pt_pv _ T) as (PV & _). destruct (pt_cv _ T) as (CV & _).
  unfold u8ok in *. rewrite (cb_eq _ _ _ _ _ _ _ _ _ _ _ _ _ _ _ _ B).
  constructor; simpl; lia.
Qed.

Theorem C26_distribution_complete : forall c liq, created c -> 0 <= liq <= U128_MAX ->
  exists partner creator, get_liquidity_distribution c liq = Ok (partner, creator)
  /\ li_unlocked partner = liq * c_partner_liq_pct c / 100
  /\ li_perm partner = liq * c_partner_perm_pct c / 100
  /\ li_vested partner = liq * vi_percentage (c_partner_vesting c) / 100
  /\ li_perm creator = liq * c_creator_perm_pct c / 100
  /\ li_vested creator = liq * vi_percentage (c_creator_vesting c) / 100
  (* the creator's unlocked part is the rest: its percentage plus the rounding, under 6 units *)
  /\ liq * c_creator_liq_pct c / 100 <= li_unlocked creator <= liq * c_creator_liq_pct c / 100 + 5
  /\ li_unlocked partner + li_perm partner + li_vested partner
     + (li_unlocked creator + li_perm creator + li_vested creator) = liq
  /\ li_total partner = Ok (li_unlocked partner + li_perm partner + li_vested partner)
  /\ li_total creator = Ok (li_unlocked creator + li_perm creator + li_vested creator).
Proof.
  intros c liq C L. destruct (created_pct c C) as [A1 A2 A3 A4 A5 A6 S].
  unfold get_liquidity_distribution.
  set (a := c_partner_perm_pct c) in *. set (b := vi_percentage (c_partner_vesting c)) in *.
  set (d := c_partner_liq_pct c) in *. set (e := c_creator_perm_pct c) in *.
  set (f := vi_percentage (c_creator_vesting c)) in *. set (g := c_creator_liq_pct c) in *.
  clearbody a b d e f g.
  assert (M : liq * a + liq * b + liq * d + liq * e + liq * f + liq * g = 100 * liq).
  { replace (100 * liq) with (liq * (a + d + b + e + g + f)) by (rewrite S; ring). ring. }
  assert (K : forall x, 0 <= x <= 100 -> 0 <= liq * x <= 100 * liq).
  { intros x X. split; [apply Z.mul_nonneg_nonneg; lia|]. rewrite (Z.mul_comm 100). apply Z.mul_le_mono_nonneg_l; lia. }
  assert (D : forall x, 0 <= x <= 100 -> safe_mul_div_cast_u128 liq x 100 Down = Ok (liq * x / 100)
     /\ 100 * (liq * x / 100) <= liq * x < 100 * (liq * x / 100) + 100 /\ 0 <= liq * x / 100).
  { intros x X. specialize (K x X).
    assert (Q : 100 * (liq * x / 100) <= liq * x < 100 * (liq * x / 100) + 100).
    { pose proof (Z.div_mod (liq * x) 100 ltac:(lia)). pose proof (Z.mod_pos_bound (liq * x) 100 ltac:(lia)). lia. }
    split; [|split; [exact Q|lia]].
    apply mul_div_cast128_down_intro; unfold U128_MAX, U256_MAX in *; lia. }
  destruct (D a) as (-> & Da & Na); [lia|]. destruct (D b) as (-> & Db & Nb); [lia|].
  destruct (D d) as (-> & Dd & Nd); [lia|]. destruct (D e) as (-> & De & Ne); [lia|].
  destruct (D f) as (-> & Df & Nf); [lia|]. destruct (D g) as (_ & Dg & Ng); [lia|].
  cbn [bind].
  set (qa := liq * a / 100) in *. set (qb := liq * b / 100) in *. set (qd := liq * d / 100) in *.
  set (qe := liq * e / 100) in *. set (qf := liq * f / 100) in *. set (qg := liq * g / 100) in *.
  clearbody qa qb qd qe qf qg. clear K D.
  rewrite ssub_intro by lia. cbn [bind]. rewrite ssub_intro by lia. cbn [bind]. rewrite ssub_intro by lia.
  cbn [bind]. rewrite ssub_intro by lia. cbn [bind]. rewrite ssub_intro by lia. cbn [bind].
  do 2 eexists. split; [reflexivity|]. simpl. unfold li_total. simpl.
  rewrite !sadd_intro by (simpl; lia). cbn [bind]. rewrite !sadd_intro by lia.
  repeat split; try lia; f_equal; lia.
Qed.

Example C26_case : created cfgA /\ 0 <= 12345678901234567890123 <= U128_MAX
  /\ c_partner_liq_pct cfgA = 20 /\ vi_percentage (c_partner_vesting cfgA) = 20.
Proof. split; [exact createdA|]. vm_compute. repeat split; congruence. Qed.

(** ** C27 *)
Theorem C27_adjust : forall i adj,
  0 <= li_unlocked i -> 0 <= adj <= U128_MAX ->
  0 <= vi_percentage (li_vesting i) -> 0 <= li_perm_pct i ->
  vi_percentage (li_vesting i) + li_perm_pct i <= 100 ->
  exists i', adjust_liquidity i adj = Ok i'
  /\ 0 <= li_unlocked i' /\ 0 <= li_perm i' /\ 0 <= li_vested i'
  /\ li_unlocked i' + li_perm i' + li_vested i' = adj
  /\ (let locked_pct := vi_percentage (li_vesting i) + li_perm_pct i in
      let locked := li_perm i' + li_vested i' in
      (* with no locked share everything is unlocked *)
      (locked_pct = 0 -> li_unlocked i' = adj)
      (* otherwise the unlocked part does not grow, is filled first, and the rest is locked, the
         vested part being its share rounded down *)
      /\ (0 < locked_pct -> li_unlocked i' <= li_unlocked i
            /\ (0 < locked -> li_unlocked i' = li_unlocked i)
            /\ li_vested i' = locked * vi_percentage (li_vesting i) / locked_pct)).
Proof.
  intros i adj U A V P S. unfold adjust_liquidity.
  rewrite sadd_intro by (unfold U8_MAX; lia). cbn [bind].
  set (v := vi_percentage (li_vesting i)) in *. set (pp := li_perm_pct i) in *.
  destruct (v + pp =? 0) eqn:E.
  { eexists. split; [reflexivity|]. simpl. repeat split; try lia. }
  rewrite ssub_intro by lia. cbn [bind].
  set (rest := adj - Z.min adj (li_unlocked i)) in *. assert (R : 0 <= rest <= adj) by lia.
  assert (RV : 0 <= rest * v <= rest * (v + pp)).
  { split; [apply Z.mul_nonneg_nonneg; lia|apply Z.mul_le_mono_nonneg_l; lia]. }
  assert (RB : rest * (v + pp) <= U128_MAX * 100) by (apply Z.mul_le_mono_nonneg; lia).
  assert (Q : 0 <= rest * v / (v + pp) <= rest).
  { split; [apply Z.div_pos; lia|]. apply Z.div_le_upper_bound; lia. }
  rewrite mul_div_cast128_down_intro; [|unfold U128_MAX, U256_MAX in *; lia|lia|lia].
  cbn [bind]. rewrite ssub_intro by lia. cbn [bind]. eexists. split; [reflexivity|]. simpl.
  repeat split; try lia.
  - replace (rest - rest * v / (v + pp) + rest * v / (v + pp)) with rest by ring. reflexivity.
Qed.

Example C27_case :
  let i := mkLiqItem 500 300 200 30 (mkLiqVesting 1 20 500 10 86400 3600) in
  adjust_liquidity i 1100 = Ok (mkLiqItem 500 360 240 30 (mkLiqVesting 1 20 500 10 86400 3600))
  /\ adjust_liquidity i 400 = Ok (mkLiqItem 400 0 0 30 (mkLiqVesting 1 20 500 10 86400 3600)).
Proof. vm_compute. auto. Qed.

(** ** C37 *)
Theorem C37_accepted_config_well_formed : forall q supported spl now quote_mint claimer leftover c,
  params_typed q -> u64ok now ->
  create_config q supported spl now quote_mint claimer leftover = Ok c ->
  (* the stored curve is the given one, padded with zeros to 20 entries *)
  c_curve c = q_curve q ++ repeat (0, 0) (20 - length (q_curve q))
  /\ (1 <= length (q_curve q) <= 16)%nat
  /\ StronglySorted Z.lt (c_start c :: map fst (q_curve q))
  /\ Forall (fun pl => fst pl <= 79226673521066979257578248091 /\ 0 < snd pl) (q_curve q)
  /\ 4295048016 <= c_start c < c_mig_price c /\ c_mig_price c < 79226673521066979257578248091
  /\ (exists pl, In pl (q_curve q) /\ c_mig_price c <= fst pl)
  (* percentages *)
  /\ percentages_ok c
  /\ 0 <= c_creator_trading_fee_pct c <= 100 /\ 0 <= c_migration_fee_pct c <= 99
  /\ 0 <= c_creator_migration_fee_pct c <= 100
  (* positive amounts that fit *)
  /\ 0 < c_threshold c <= U64_MAX /\ 0 < c_base_threshold c <= U64_MAX
  /\ 0 < c_swap_base_amount c <= U64_MAX
  (* at the migration price the curve has collected exactly the threshold (rounding each segment up) *)
  /\ quote_area_ceil (c_start c) (q_curve q) (c_mig_price c) = c_threshold c
  (* enumerations *)
  /\ (c_activation_type c = 0 \/ c_activation_type c = 1)
  /\ (c_collect_fee_mode c = 0 \/ c_collect_fee_mode c = 1)
  /\ (c_migration_option c = 0 \/ c_migration_option c = 1)
  /\ (c_token_type c = 0 \/ c_token_type c = 1) /\ 6 <= c_token_decimal c <= 9
  /\ (c_pool_creation_fee c = 0 \/ 1000000 <= c_pool_creation_fee c <= 100000000000)
  (* DAMM v1 pools use SPL tokens and have no liquidity vesting *)
  /\ (c_migration_option c = 0 -> c_token_type c = 0 /\ spl = true
        /\ vi_percentage (c_partner_vesting c) = 0 /\ vi_percentage (c_creator_vesting c) = 0).
Proof.
  intros q sup spl now qm cl lo c T N H.
  assert (CR : created c) by (exists q, sup, spl, now, qm, cl, lo; auto).
  pose proof (created_cfg_ok c CR) as K. pose proof (created_pct c CR) as PC.
  apply create_inv in H. destruct H as (mig & sb & ba & fl & pre & post & qa & bps & B).
  pose proof (cb_valid _ _ _ _ _ _ _ _ _ _ _ _ _ _ _ _ B) as V.
  apply validate_inv in V. destruct V as (_ & V).
  pose proof (curve_validate_ok _ _ (va_curve _ _ _ V)) as (S & NE & LEN & WF & TOP).
  pose proof (cb_eq _ _ _ _ _ _ _ _ _ _ _ _ _ _ _ _ B) as EC.
  assert (CP : curve_points c = q_curve q).
  { rewrite EC. apply curve_points_build; exact (va_curve _ _ _ V) || exact WF. }
  assert (ST : c_start c = q_start q) by (rewrite EC; reflexivity).
  assert (CC : c_curve c = pad_curve (q_curve q)) by (rewrite EC; reflexivity).
  pose proof (ok_curve _ K) as OC. rewrite CP in OC. destruct OC as [O1 O2 O3 O4 O5 O6 O7 O8].
  pose proof (ok_start_min _ K) as OM. pose proof (ok_mig_max _ K) as OX. pose proof (ok_area _ K) as OA.
  rewrite CP in OA. unfold MIN_SQRT_PRICE, MAX_SQRT_PRICE in *.
  assert (SORT : forall cv low, curve_wf low cv -> StronglySorted Z.lt (low :: map fst cv)
     /\ Forall (fun pl => low < fst pl) cv).
  { induction cv as [|[p l] rest IH]; intros low W; simpl; [repeat constructor|].
    destruct W as (W1 & W2 & W3). destruct (IH p W3) as (I1 & I2).
    assert (F : Forall (fun pl : point => low < fst pl) rest).
    { eapply Forall_impl; [|exact I2]. simpl. intros; lia. }
    split; [|constructor; auto]. constructor; [exact I1|]. constructor; [exact W1|].
    apply Forall_map. exact F. }
  assert (LIQ : forall cv low m, curve_wf low cv -> top_price low cv <= m ->
     Forall (fun pl => fst pl <= m /\ 0 < snd pl) cv /\ low <= m).
  { induction cv as [|[p l] rest IH]; intros low m W TP; simpl in *; [split; [constructor|lia]|].
    destruct W as (W1 & W2 & W3). destruct (IH p m W3 TP) as (I1 & I2). split; [|lia].
    constructor; simpl; auto. }
  assert (LASTIN : forall cv low, cv <> [] -> exists pl, In pl cv /\ top_price low cv = fst pl).
  { induction cv as [|[p l] rest IH]; intros low X; [congruence|].
    destruct rest as [|y rest]; [exists (p, l); simpl; auto|].
    destruct (IH p ltac:(discriminate)) as (pl & P1 & P2). exists pl. split; [right; exact P1|exact P2]. }
  split; [exact CC|]. split; [destruct (q_curve q); [congruence|simpl in *; lia]|].
  split; [apply SORT; exact O4|]. split; [apply (LIQ _ (c_start c)); auto|].
  split; [lia|]. split; [lia|].
  split. { destruct (LASTIN (q_curve q) (c_start c) O3) as (pl & P1 & P2). exists pl. split; [exact P1|lia]. }
  split; [exact PC|]. split; [exact (ok_ctf _ K)|]. split; [exact (ok_mfp _ K)|]. split; [exact (ok_cmfp _ K)|].
  split; [exact (ok_threshold _ K)|]. split; [exact (ok_base _ K)|]. split; [exact (ok_swap _ K)|].
  split; [exact OA|]. split; [exact (ok_act _ K)|]. split; [exact (ok_collect _ K)|]. split; [exact (ok_opt _ K)|].
  assert (E1 : c_token_type c = q_token_type q) by (rewrite EC; reflexivity).
  assert (E2 : c_token_decimal c = q_token_decimal q) by (rewrite EC; reflexivity).
  assert (E3 : c_pool_creation_fee c = q_pool_creation_fee q) by (rewrite EC; reflexivity).
  assert (E4 : c_migration_option c = q_migration_option q) by (rewrite EC; reflexivity).
  assert (E5 : vi_percentage (c_partner_vesting c) = vq_percentage (q_partner_vesting q)) by (rewrite EC; reflexivity).
  assert (E6 : vi_percentage (c_creator_vesting c) = vq_percentage (q_creator_vesting q)) by (rewrite EC; reflexivity).
  rewrite E1, E2, E3, E4, E5, E6. split; [exact (va_tt _ _ _ V)|]. split; [exact (va_dec _ _ _ V)|]. split.
  - pose proof (va_pcf _ _ _ V) as X. pose proof (pt_pcf _ T) as Y. unfold u64ok, MIN_POOL_CREATION_FEE, MAX_POOL_CREATION_FEE in *.
    destruct (Z.eq_dec (q_pool_creation_fee q) 0); [left; auto|right; apply X; lia].
  - intros O. destruct (va_v1 _ _ _ V O) as (X1 & X2 & _ & _ & X3 & X4). unfold vq_is_zero in X3, X4.
    repeat split; auto; lia.
Qed.

Example C37_case : params_typed fx_paramsA /\ create_config fx_paramsA true true 1700000000 11 22 33 = Ok cfgA.
Proof. split; [exact typedA|exact cfgA_created]. Qed.

(** The stored terms are the ones given, and a fixed supply always names someone to take the leftover. *)
Theorem C37_terms_as_given : forall q supported spl now quote_mint claimer leftover c,
  create_config q supported spl now quote_mint claimer leftover = Ok c ->
  c_quote_mint c = quote_mint /\ c_fee_claimer c = claimer /\ c_leftover_receiver c = leftover
  /\ c_threshold c = q_threshold q /\ c_start c = q_start q /\ c_vesting c = q_vesting q
  /\ c_creator_trading_fee_pct c = q_creator_trading_fee_pct q
  /\ c_migration_fee_pct c = q_migration_fee_pct q
  /\ c_creator_migration_fee_pct c = q_creator_migration_fee_pct q
  /\ c_pool_creation_fee c = q_pool_creation_fee q
  /\ c_token_update_authority c = q_token_update_authority q
  /\ c_partner_perm_pct c = q_partner_perm_pct q /\ c_partner_liq_pct c = q_partner_liq_pct q
  /\ c_creator_perm_pct c = q_creator_perm_pct q /\ c_creator_liq_pct c = q_creator_liq_pct q
  /\ match q_token_supply q with
     | Some (pre, post) => c_fixed_supply_flag c = 1 /\ c_pre_supply c = pre /\ c_post_supply c = post
                           /\ c_leftover_receiver c <> 0
     | None => c_fixed_supply_flag c = 0
     end.
Proof.
  intros q sup spl now qm cl lo c H.
  apply create_inv in H. destruct H as (mig & sb & ba & fl & pre & post & qa & bps & B).
  pose proof (cb_supply _ _ _ _ _ _ _ _ _ _ _ _ _ _ _ _ B) as S.
  rewrite (cb_eq _ _ _ _ _ _ _ _ _ _ _ _ _ _ _ _ B). unfold build. cbn.
  do 15 (split; [reflexivity|]). unfold supply_of_params in S. destruct (q_token_supply q) as [[a b]|].
  - do 3 (apply bind_ok in S; destruct S as (? & _ & S)).
    apply bind_ok in S. destruct S as (u & L & S). apply require_ok in L.
    apply bind_ok in S. destruct S as (u1 & _ & S). apply Ok_inj in S. injection S as <- <- <-.
    repeat split; auto. lia.
  - apply Ok_inj in S. injection S as <- <- <-. reflexivity.
Qed.

Example C37_terms_case : create_config fx_paramsA true true 1700000000 11 22 33 = Ok cfgA
  /\ q_token_supply fx_paramsA <> None /\ c_leftover_receiver cfgA = 33
  /\ create_config fx_paramsA true true 1700000000 11 22 0 = Err EInvalidLeftoverAddress.
Proof. split; [exact cfgA_created|]. vm_compute. repeat split; congruence. Qed.

(** ** C38 *)
Theorem C38_initial_supply : forall c key creator payer tt slot time admins ops w,
  created c -> initialize_pool c key creator payer tt slot time admins ops = Ok w ->
  let vest := lv_cliff_unlock_amount (c_vesting c)
              + lv_amount_per_period (c_vesting c) * lv_number_of_period (c_vesting c) in
  w_supply w <= U64_MAX
  /\ w_bvault w = w_supply w /\ p_base (w_pool w) = w_supply w
  /\ c_swap_base_amount c + c_base_threshold c + vest <= w_supply w
  /\ (base_area (c_start c) (curve_points c) (c_mig_price c) <= inject_Z (c_swap_base_amount c))%Q
  /\ (c_fixed_supply_flag c = 1 -> w_supply w = c_pre_supply c
        /\ c_swap_base_amount c + c_base_threshold c + vest <= c_post_supply c <= c_pre_supply c).
Proof.
  intros c key cr pa t sl ti ad os w C H vest.
  pose proof (created_cfg_ok c C) as K. unfold initialize_pool in H.
  apply bind_ok in H. destruct H as (bps & _ & H). apply bind_ok in H. destruct H as (u1 & _ & H).
  apply bind_ok in H. destruct H as (u2 & _ & H). apply bind_ok in H. destruct H as (s & S & H).
  apply bind_ok in H. destruct H as (u3 & _ & H). apply bind_ok in H. destruct H as (u4 & _ & H).
  apply bind_ok in H. destruct H as (u5 & _ & H). apply bind_ok in H. destruct H as (act & _ & H).
  apply Ok_inj in H. subst w. simpl.
  assert (VT : forall x, lv_total (c_vesting c) = Ok x -> x = vest).
  { intros x X. unfold lv_total in X. apply bind_ok in X. destruct X as (m & M & X). apply smul_ok in M.
    destruct M as (-> & _). apply sadd_ok in X. destruct X as (-> & _). reflexivity. }
  destruct (ok_supply _ K s S) as (x & X & B). apply VT in X. subst x.
  split; [lia|]. split; [reflexivity|]. split; [reflexivity|]. split; [lia|]. split; [exact (ok_swap_area _ K)|].
  intros F. assert (F' : is_fixed_supply c = true) by (unfold is_fixed_supply; lia).
  split; [|destruct (ok_post _ K F') as (y & Y & Z1 & Z2); apply VT in Y; subst y; lia].
  unfold get_initial_base_supply in S. rewrite F' in S. apply Ok_inj in S. auto.
Qed.

Example C38_case : created cfgA /\ fx_world cfgA 0 = Ok wA /\ c_fixed_supply_flag cfgA = 1
  /\ w_supply wA = 200000000000000.
Proof. split; [exact createdA|]. split; [exact wA_created|]. vm_compute. auto. Qed.

(** ** C50 *)
Lemma base_loop_le mig curve : forall low total r,
  0 < low -> curve_wf low curve -> low <= mig ->
  base_for_swap_loop low mig total curve = Ok r ->
  (inject_Z r <= inject_Z total + base_area low curve mig + inject_Z (Z.of_nat (length curve)))%Q.
Proof.
  induction curve as [|[p l] rest IH]; intros low total r Hl W Hm H; simpl in H.
  - minv. simpl. change (inject_Z 0) with 0%Q. lra.
  - destruct W as (W1 & W2 & W3).
    assert (SEG : forall up d, low <= up -> delta_base_256 low up l Up = Ok d ->
              (inject_Z d <= inject_Z l * (/ inject_Z low - / inject_Z up) + 1)%Q).
    { intros up d Hu D. apply delta_base_256_ok in D. destruct D as (_ & D2 & -> & _). simpl divr.
      pose proof (injZ_pos low Hl) as P1. pose proof (injZ_pos up ltac:(lia)) as P2.
      setoid_replace (inject_Z l * (/ inject_Z low - / inject_Z up) + 1)%Q
        with ((inject_Z (l * (up - low)) + inject_Z (low * up)) / inject_Z (low * up))%Q.
      2:{ rewrite !inject_Z_mult. unfold Z.sub. rewrite inject_Z_plus, inject_Z_opp. field. lra. }
      apply Qle_shift_div_l; [apply injZ_pos; exact D2|].
      rewrite <- inject_Z_mult, <- inject_Z_plus. rewrite <- Zle_Qle. unfold cdiv.
      pose proof (div_lb (l * (up - low) + low * up - 1) (low * up) D2). lia. }
    assert (LEN : (inject_Z (Z.of_nat (length ((p, l) :: rest))) == 1 + inject_Z (Z.of_nat (length rest)))%Q).
    { change (length ((p, l) :: rest)) with (S (length rest)). rewrite Nat2Z.inj_succ, <- Z.add_1_l, inject_Z_plus. reflexivity. }
    rewrite LEN. simpl base_area.
    assert (NN : (0 <= inject_Z (Z.of_nat (length rest)))%Q).
    { change 0%Q with (inject_Z 0). rewrite <- Zle_Qle. lia. }
    destruct (mig <? p) eqn:C; minv.
    + rewrite covered_in by lia. rewrite base_area_below by (auto; lia).
      apply SEG in E; [|lia]. rewrite inject_Z_plus. lra.
    + rewrite covered_above by lia. apply SEG in E; [|lia].
      apply IH in H; auto; try lia. rewrite inject_Z_plus in H. lra.
Qed.

(** For every curve, every migration price on it: the buffered amount. [whole] is all the base
    the curve sells up to the maximum price, within one unit per segment of the exact area. *)
Theorem C50_swap_buffer : forall start curve mig base buffered,
  0 < start -> curve_wf start curve -> start <= mig <= MAX_SQRT_PRICE -> 0 <= base ->
  get_base_token_for_swap start mig curve = Ok base ->
  get_swap_amount_with_buffer base start curve = Ok buffered ->
  base <= buffered
  /\ 100 * buffered <= 125 * base
  /\ (inject_Z buffered <= base_area start curve MAX_SQRT_PRICE + inject_Z (Z.of_nat (length curve)))%Q
  /\ ((base_area start curve MAX_SQRT_PRICE <= inject_Z buffered)%Q \/ buffered = base + base / 4)
  /\ buffered <= U64_MAX.
Proof.
  intros start curve mig base buf S W M B HS HB.
  pose proof (swap_buffer_ge base start mig curve buf S W (proj1 M) (proj2 M) B HS HB) as G.
  apply swap_buffer_ok in HB. destruct HB as (mx & MX & E & U).
  pose proof (base_loop_le _ _ _ _ _ S W (Z.le_trans _ _ _ (proj1 M) (proj2 M)) MX) as LE.
  pose proof (base_loop_ge _ _ _ _ _ S W (Z.le_trans _ _ _ (proj1 M) (proj2 M)) MX) as GE.
  assert (Q4 : base * 25 / 100 = base / 4).
  { replace (base * 25) with (25 * base) by ring. replace 100 with (25 * 4) by reflexivity. apply Z.div_mul_cancel_l; lia. }
  pose proof (div_lb base 4 ltac:(lia)).
  split; [lia|]. split; [lia|]. split.
  { eapply Qle_trans; [|eapply Qle_trans; [exact LE|]]; [rewrite <- Zle_Qle; lia|]. change (inject_Z 0) with 0%Q. lra. }
  split; [|lia]. destruct (Z.le_gt_cases mx (base + base * 25 / 100)).
  - left. replace buf with mx by lia. change (inject_Z 0) with 0%Q in GE. lra.
  - right. lia.
Qed.

Example C50_case : 0 < c_start cfgB /\ curve_wf (c_start cfgB) (curve_points cfgB)
  /\ get_base_token_for_swap (c_start cfgB) (c_mig_price cfgB) (curve_points cfgB) = Ok (c_swap_base_amount cfgB)
  /\ is_ok (get_swap_amount_with_buffer (c_swap_base_amount cfgB) (c_start cfgB) (curve_points cfgB)) = true.
Proof. vm_compute. repeat split; auto. Qed.

(** The supply minted at pool creation contains the buffered amount: beyond what the curve sells up to
    the migration price, a quarter more (rounded down) or everything the curve can ever sell. *)
Theorem C50_supply_has_buffer : forall c key creator payer tt slot time admins ops w,
  created c -> initialize_pool c key creator payer tt slot time admins ops = Ok w ->
  let base := c_swap_base_amount c in
  let vest := lv_cliff_unlock_amount (c_vesting c)
              + lv_amount_per_period (c_vesting c) * lv_number_of_period (c_vesting c) in
  exists buffered,
    ((base_area (c_start c) (curve_points c) MAX_SQRT_PRICE <= inject_Z buffered)%Q
     \/ buffered = base + base / 4)
    /\ base <= buffered /\ 100 * buffered <= 125 * base
    /\ buffered + c_base_threshold c + vest <= w_supply w
    /\ (c_fixed_supply_flag c = 0 -> w_supply w = buffered + c_base_threshold c + vest).
Proof.
  intros c key cr pa t sl ti ad os w C H base vest.
  pose proof (created_cfg_ok c C) as K. pose proof C as C'. apply created_inv in C'.
  destruct C' as (q & sup & spl & now & mig & sb & ba & fl & pre & post & qm & fc & lr & qa & bps & T & _ & B).
  destruct B as [V M MX S S64 AM BP SP MODE COMP SUP BPS BMIN EQ].
  apply validate_inv in V. destruct V as (_ & V).
  pose proof (curve_validate_ok _ _ (va_curve _ _ _ V)) as (ST & NE & LEN & W & TOP).
  assert (S0 : 0 < q_start q) by (unfold MIN_SQRT_PRICE in *; lia).
  assert (LQ : Forall (fun pl => u128ok (snd pl)) (q_curve q)).
  { eapply Forall_impl; [|exact (pt_curve _ T)]. simpl. tauto. }
  pose proof (threshold_price_ok _ _ _ _ S0 W LQ (va_threshold _ _ _ V) M) as (MR & _).
  assert (CP : curve_points c = q_curve q) by (rewrite EQ; apply curve_points_build; auto).
  assert (VT : lv_total (q_vesting q) = Ok vest).
  { destruct (ok_vest _ K) as (x & X & _). assert (EV : c_vesting c = q_vesting q) by (rewrite EQ; reflexivity).
    rewrite EV in X. rewrite X. f_equal. unfold vest. rewrite EV. unfold lv_total in X.
    apply bind_ok in X. destruct X as (m & Hm & X). apply smul_ok in Hm. destruct Hm as (-> & _).
    apply sadd_ok in X. destruct X as (-> & _). reflexivity. }
  assert (BF : exists buf, get_swap_amount_with_buffer sb (q_start q) (q_curve q) = Ok buf
     /\ buf + ba + vest <= w_supply w /\ (c_fixed_supply_flag c = 0 -> w_supply w = buf + ba + vest)).
  { unfold initialize_pool in H.
    apply bind_ok in H. destruct H as (b2 & _ & H). apply bind_ok in H. destruct H as (u1 & _ & H).
    apply bind_ok in H. destruct H as (u2 & _ & H). apply bind_ok in H. destruct H as (s & HS & H).
    apply bind_ok in H. destruct H as (u3 & _ & H). apply bind_ok in H. destruct H as (u4 & _ & H).
    apply bind_ok in H. destruct H as (u5 & _ & H). apply bind_ok in H. destruct H as (act & _ & H).
    apply Ok_inj in H. subst w. cbn [w_supply]. unfold get_initial_base_supply in HS.
    unfold supply_of_params in SUP. destruct (q_token_supply q) as [[x y]|].
    - apply bind_ok in SUP. destruct SUP as (buf & HB & SUP).
      apply bind_ok in SUP. destruct SUP as (wb & HW & SUP).
      apply bind_ok in SUP. destruct SUP as (wo & HO & SUP).
      apply bind_ok in SUP. destruct SUP as (u & _ & SUP). apply bind_ok in SUP. destruct SUP as (u' & RQ & SUP).
      apply require_ok in RQ. injection SUP as <- <- <-.
      assert (FS : is_fixed_supply c = true /\ c_pre_supply c = x /\ c_fixed_supply_flag c = 1)
        by (rewrite EQ; repeat split; reflexivity).
      destruct FS as (FS & PS & FL). rewrite FS, PS in HS. apply Ok_inj in HS. subst s.
      apply (total_supply_ok _ _ _ _ vest) in HW; auto. exists buf. split; [exact HB|]. rewrite FL. lia.
    - injection SUP as <- <- <-.
      assert (FS : is_fixed_supply c = false /\ c_swap_base_amount c = sb /\ c_start c = q_start q
         /\ c_base_threshold c = ba /\ c_vesting c = q_vesting q) by (rewrite EQ; repeat split; reflexivity).
      destruct FS as (F1 & F2 & F3 & F4 & F5). rewrite F1, F2, F3, F4, F5, (ok_used _ K), CP in HS.
      apply bind_ok in HS. destruct HS as (buf & HB & HS). apply (total_supply_ok _ _ _ _ vest) in HS; auto.
      exists buf. split; [exact HB|]. lia. }
  destruct BF as (buf & HB & B1 & B2).
  assert (FS : c_swap_base_amount c = sb /\ c_start c = q_start q /\ c_base_threshold c = ba)
    by (rewrite EQ; repeat split; reflexivity).
  destruct FS as (F1 & F2 & F3). unfold base. rewrite F1, F2, F3, CP.
  destruct (C50_swap_buffer (q_start q) (q_curve q) mig sb buf) as (G1 & G2 & _ & G4 & _); auto; try lia.
  exists buf. auto.
Qed.

Example C50_supply_case : created cfgA /\ fx_world cfgA 0 = Ok wA
  /\ created cfgB /\ fx_world cfgB 0 = Ok wB /\ c_fixed_supply_flag cfgB = 0.
Proof. split; [exact createdA|]. split; [exact wA_created|]. split; [exact createdB|]. split; [exact wB_created|reflexivity]. Qed.

(** A config without a fixed supply is accepted although the supply its pools would need does not fit in 64 bits:
    no pool can ever be created from it. *)
Definition fx_price_big : Z := 210000000000000.
Definition fx_paramsBig : config_params :=
  {| q_base_fee := mkBaseFee 100000000 20 60 500 1;
     q_dynamic_fee := None;
     q_collect_fee_mode := 1; q_migration_option := 0; q_activation_type := 0;
     q_token_type := 0; q_token_decimal := 9;
     q_partner_liq_pct := 40; q_partner_perm_pct := 20; q_creator_liq_pct := 30;
     q_creator_perm_pct := 10;
     q_threshold := 1000000000; q_start := fx_price_big / 2;
     q_vesting := mkLockedVesting 0 0 0 0 0;
     q_migration_fee_option := 0; q_token_supply := None;
     q_creator_trading_fee_pct := 50; q_token_update_authority := 3;
     q_migration_fee_pct := 0; q_creator_migration_fee_pct := 0;
     q_migrated_collect_mode := 0; q_migrated_dynamic_fee := 0; q_migrated_pool_fee_bps := 0;
     q_pool_creation_fee := 0;
     q_partner_vesting := no_vest; q_creator_vesting := no_vest;
     q_migrated_base_fee_mode := 0; q_mc_number_of_period := 0; q_mc_price_step := 0;
     q_mc_expiration := 0; q_mc_reduction := 0; q_first_swap_min_fee := false;
     q_compounding_fee_bps := 0;
     q_curve := [ (2 * fx_price_big, 1000000000 * 2 ^ 128 / (fx_price_big / 2)) ] |}.
Definition cfgBig : config := Eval vm_compute in get dummy_config (fx_config fx_paramsBig).

Theorem C38_config_without_pool_refuted : exists c, created c
  /\ forall key creator payer tt slot time admins ops,
       initialize_pool c key creator payer tt slot time admins ops = Err EMathOverflow.
Proof.
  exists cfgBig. split.
  - exists fx_paramsBig, true, true, 1700000000, 11, 22, 33. split; [typed|].
    split; [unfold u64ok; vm_compute; split; congruence|]. vm_compute. reflexivity.
  - intros. unfold initialize_pool.
    assert (E1 : total_locked_bps_at cfgBig SECONDS_PER_DAY = Ok 3000) by (vm_compute; reflexivity).
    assert (E2 : validate_min_base_fee (pf_base (c_fees cfgBig)) = Ok Datatypes.tt) by (vm_compute; reflexivity).
    assert (E3 : get_initial_base_supply cfgBig = Err EMathOverflow) by (vm_compute; reflexivity).
    rewrite E1. cbn [bind]. change (MIN_LOCKED_LIQUIDITY_BPS <=? 3000) with true. cbn [require bind].
    rewrite E2. cbn [bind]. rewrite E3. reflexivity.
Qed.

Print Assumptions C26_distribution_complete.
Print Assumptions C27_adjust.
Print Assumptions C37_accepted_config_well_formed.
Print Assumptions C37_terms_as_given.
Print Assumptions C38_initial_supply.
Print Assumptions C50_swap_buffer.
Print Assumptions C50_supply_has_buffer.
Print Assumptions C38_config_without_pool_refuted.
