(** * Properties of single swaps: C01 - C04, C06 - C08, C10, C11. *)
From Coq Require Import ZArith QArith List Bool Lia ZifyBool Lqa.
From Verif Require Import Base MathModel CurveModel FeeModel ConfigModel PoolModel TxModel
  SystemModel Spec Lib CurveProofs CurveLoops Potential CalcProofs ConfigProofs FeeProofs
  SwapProofs InvProofs InvOps InvReach Fixtures FixturesReach.
Import ListNotations.
Open Scope Z_scope.
#[local] Arguments Z.pow : simpl never.

(** ** The facts behind every successful swap of a reachable pool *)
Lemma reach_swap w a w' :
  reachable w -> exec w (OSwap a) = Ok w' ->
  cfg_ok (w_config w) /\ fees_ok (c_fees (w_config w)) /\ 0 <= sa_amount0 a /\ 0 <= sa_amount1 a
  /\ exists r fm num fee gross pf cf cur p1,
    swap_effect w w' a fm r num fee gross pf cf cur
    /\ update_pre_swap (w_config w) (w_pool w) (sa_now a) = Ok p1
    /\ process_swap (w_config w) p1 (sa_mode a) (sa_amount0 a) (sa_amount1 a) fm (sa_dir a) cur
         (first_swap_eligible (w_config w) (w_pool w) (w_key w) (is_some (sa_referral a))
            (sa_view a)) = Ok r.
Proof.
  intros R H. apply reachable_inv in R. pose proof (created_cfg_ok _ (iv_created _ R)) as K.
  pose proof (created_fees_ok _ (iv_created _ R)) as F.
  unfold exec in H. apply bind_ok in H. destruct H as (u & A & H). apply require_ok in A.
  simpl in A. repeat rewrite andb_true_iff in A. destruct A as (((A0 & A1) & _) & _).
  apply u64b_ok in A0, A1. destruct A0 as (A0 & _), A1 as (A1 & _).
  unfold do_swap in H. apply bind_ok in H. destruct H as ([w2 r] & S & H). apply Ok_inj in H.
  simpl in H. subst w2. apply swap_full_effect in S; auto; [|apply (iv_price _ R)].
  destruct S as (fm & num & fee & gross & pf & cf & cur & p1 & E).
  repeat (split; [assumption|]). exists r, fm, num, fee, gross, pf, cf, cur, p1. auto.
Qed.

Definition same_money (p p' : pool) : Prop :=
  p_price p' = p_price p /\ p_base p' = p_base p /\ p_quote p' = p_quote p
  /\ p_partner_base p' = p_partner_base p /\ p_partner_quote p' = p_partner_quote p
  /\ p_creator_base p' = p_creator_base p /\ p_creator_quote p' = p_creator_quote p
  /\ p_protocol_base p' = p_protocol_base p /\ p_protocol_quote p' = p_protocol_quote p.

(** The pool after the swap, up to the completion flag. *)
Lemma effect_applied w w' a fm r num fee gross pf cf cur :
  swap_effect w w' a fm r num fee gross pf cf cur ->
  exists p2, applied (w_config w) (w_pool w) p2 r fm (sa_dir a) pf cf gross
    /\ same_money p2 (w_pool w').
Proof.
  intros E. destruct (se_pool _ _ _ _ _ _ _ _ _ _ _ E) as (p2 & AP & _ & _ & C).
  exists p2. split; auto.
  destruct C as [(_ & ->)|(_ & _ & ->)]; unfold same_money; repeat split; reflexivity.
Qed.

Definition ftok (fm : fee_mode) : token := if fm_on_base fm then TBase else TQuote.

Lemma log_movements w w' a fm r num fee gross pf cf cur :
  swap_effect w w' a fm r num fee gross pf cf cur ->
  w_log w' = w_log w ++ swap_movements a (sr_included r) (sr_output r) (ftok fm) (sr_referral r).
Proof.
  intros E. rewrite (se_log _ _ _ _ _ _ _ _ _ _ _ E). f_equal.
Qed.

(** Everything an outside observer sees of one swap. *)
Lemma swap_observed_num w a w' :
  reachable w -> exec w (OSwap a) = Ok w' ->
  exists paid got fee trading protocol referral num,
    let ft := if c_collect_fee_mode (w_config w) =? 0 then TQuote else token_out (sa_dir a) in
    let p := w_pool w in let p' := w_pool w' in
    let tin := token_in (sa_dir a) in let tout := token_out (sa_dir a) in
    (c_collect_fee_mode (w_config w) = 0 \/ c_collect_fee_mode (w_config w) = 1)
    /\ 0 <= paid /\ 0 <= got /\ 0 <= trading /\ 0 <= protocol /\ 0 <= referral
    /\ w_log w' = w_log w ++ swap_movements a paid got ft referral
    /\ paid = reserve tin p' - reserve tin p + on ft tin fee
    /\ reserve tout p - reserve tout p' = got + on ft tout fee
    /\ fee_parts fee (is_some (sa_referral a)) trading protocol referral
    /\ fee = trading + protocol + referral
    /\ 0 <= num <= 990000000
    /\ fee = ceil_div (num * (if c_collect_fee_mode (w_config w) =? 0
                              then match sa_dir a with QuoteToBase => paid | BaseToQuote => got + fee end
                              else got + fee)) 1000000000
    /\ (forall t, t = TBase \/ t = TQuote ->
         creator_fees t p' = creator_fees t p
            + on ft t (trading * c_creator_trading_fee_pct (w_config w) / 100)
         /\ partner_fees t p' + creator_fees t p'
            = partner_fees t p + creator_fees t p + on ft t trading
         /\ protocol_fees t p' = protocol_fees t p + on ft t protocol
         /\ vault t w' - vault t w = reserve t p' - reserve t p + on ft t (trading + protocol))
    /\ (sa_referral a = None -> referral = 0)
    /\ (exists vt, pre_tracker (w_config w) p (sa_now a) vt
         /\ post_tracker (w_config w) vt (p_price p) (p_price p') (sa_now a) (p_tracker p')
         /\ let cur := point_of (w_config w) (sa_slot a) (sa_now a) in
            let el := first_swap_eligible (w_config w) p (w_key w) (is_some (sa_referral a)) (sa_view a) in
            num_from (w_config w) (set_tracker p vt) cur (sa_dir a) el num
            /\ (sa_mode a = 0 -> paid = sa_amount0 a
                 /\ num_included (w_config w) (set_tracker p vt) cur (sa_amount0 a) (sa_dir a) el = Ok num)).
Proof.
  intros R H. destruct (reach_swap _ _ _ R H) as (K & F & HA & _ & r & fm & num & fee & gross
    & pf & cf & cur & p1 & E & _ & _).
  pose proof (se_facts _ _ _ _ _ _ _ _ _ _ _ E) as SF.
  pose proof (log_movements _ _ _ _ _ _ _ _ _ _ _ E) as LG.
  pose proof (se_bvault _ _ _ _ _ _ _ _ _ _ _ E) as BV.
  pose proof (se_qvault _ _ _ _ _ _ _ _ _ _ _ E) as QV.
  pose proof (se_fm _ _ _ _ _ _ _ _ _ _ _ E) as FM.
  assert (FT : ftok fm = (if c_collect_fee_mode (w_config w) =? 0 then TQuote
                         else token_out (sa_dir a))
     /\ fm_on_input fm = (if c_collect_fee_mode (w_config w) =? 0
                          then match sa_dir a with QuoteToBase => true | BaseToQuote => false end
                          else false)
     /\ (c_collect_fee_mode (w_config w) = 0 \/ c_collect_fee_mode (w_config w) = 1)).
  { unfold get_fee_mode in FM. apply bind_ok in FM. destruct FM as (cm & CM & FM).
    apply Ok_inj in FM. unfold collect_of in CM. subst fm.
    destruct (c_collect_fee_mode (w_config w) =? 0) eqn:C0.
    - apply Ok_inj in CM. subst cm. destruct (sa_dir a); simpl; repeat split; auto; left; lia.
    - destruct (c_collect_fee_mode (w_config w) =? 1) eqn:C1; [|discriminate].
      apply Ok_inj in CM. subst cm. destruct (sa_dir a); simpl; repeat split; auto; right; lia. }
  destruct FT as (FT & OI & CM).
  apply fee_mode_cases in FM. destruct FM as (FR & FB & FD).
  pose proof (se_num _ _ _ _ _ _ _ _ _ _ _ E) as SN.
  pose proof (se_point _ _ _ _ _ _ _ _ _ _ _ E) as CP.
  assert (CE : cur = point_of (w_config w) (sa_slot a) (sa_now a)).
  { clear - CP. unfold current_point, activation_of in CP. unfold point_of.
    destruct (c_activation_type (w_config w) =? 0); [|destruct (c_activation_type (w_config w) =? 1)];
    minv; try reflexivity; discriminate. }
  destruct (effect_applied _ _ _ _ _ _ _ _ _ _ _ E) as (p2 & AP & SM). clear E.
  destruct SF as [NB FE _ FN PARTS IN OUT _ _ _ EX GR ON _].
  destruct AP as [SPL PPR _ PB PQ _ _ _ _ APB APQ CB CQ PRB PRQ _ _ _ _ _].
  destruct SM as (M0 & M1 & M2 & M3 & M4 & M5 & M6 & M7 & M8).
  pose proof PARTS as PARTS'.
  apply parts_sum in PARTS; auto. destruct PARTS as (PS1 & PS2 & PS3 & PS4 & PS5).
  apply split_pc_ok in SPL; auto; [|apply (ok_ctf _ K)]. destruct SPL as (SP0 & SP1 & SP2 & SP3).
  clear K F R H HA.
  exists (sr_included r), (sr_output r), fee, (sr_trading r), (sr_protocol r), (sr_referral r), num.
  cbv zeta. rewrite <- FT. clear FT.
  assert (0 <= sr_included r) by (destruct (fm_on_input fm); lia).
  assert (RV : sr_included r = reserve (token_in (sa_dir a)) (w_pool w') - reserve (token_in (sa_dir a)) (w_pool w)
       + on (ftok fm) (token_in (sa_dir a)) fee
     /\ reserve (token_out (sa_dir a)) (w_pool w) - reserve (token_out (sa_dir a)) (w_pool w')
       = sr_output r + on (ftok fm) (token_out (sa_dir a)) fee).
  { unfold on, ftok, reserve, token_in, token_out. 
    clear LG. unfold quote_in, base_in, fi_dq, fi_db in *.
    destruct (sa_dir a); [rewrite (FD eq_refl) in *|destruct (fm_on_input fm)]; simpl in FB;
    rewrite FB in *; lia. }
  destruct RV as (RV1 & RV2).
  repeat (split; [assumption|]).
  split; [rewrite FR in PARTS'; exact PARTS'|].
  split; [lia|]. split; [exact NB|].
  split.
  { rewrite ceil_div_cdiv by reflexivity. rewrite FE at 1. f_equal. rewrite Z.mul_comm. f_equal.
    rewrite OI, OUT, OI. destruct (c_collect_fee_mode (w_config w) =? 0); destruct (sa_dir a); auto. }
  split; [|split; [intros N; apply PS5; rewrite FR, N; reflexivity|
    rewrite <- CE, M0, PPR; exact SN]].
  clear SN CP CE M0 PPR. clear LG PARTS' OI. unfold on, ftok, partner_fees, creator_fees, protocol_fees, reserve, vault.
  unfold quote_in, base_in, fi_dq, fi_db in *.
  intros t Ht. split.
  { rewrite <- SP0. destruct Ht; subst t;
    (destruct (sa_dir a); [rewrite (FD eq_refl) in *|destruct (fm_on_input fm)]); simpl in FB;
    rewrite FB in *; lia. }
  destruct Ht; subst t;
    (destruct (sa_dir a); [rewrite (FD eq_refl) in *|destruct (fm_on_input fm)]); simpl in FB;
    rewrite FB in *; destruct (sa_referral a); simpl in FR; try rewrite (PS5 FR) in *; lia.
Qed.

Lemma swap_observed w a w' :
  reachable w -> exec w (OSwap a) = Ok w' ->
  exists paid got fee trading protocol referral num,
    let ft := if c_collect_fee_mode (w_config w) =? 0 then TQuote else token_out (sa_dir a) in
    let p := w_pool w in let p' := w_pool w' in
    let tin := token_in (sa_dir a) in let tout := token_out (sa_dir a) in
    (c_collect_fee_mode (w_config w) = 0 \/ c_collect_fee_mode (w_config w) = 1)
    /\ 0 <= paid /\ 0 <= got /\ 0 <= trading /\ 0 <= protocol /\ 0 <= referral
    /\ w_log w' = w_log w ++ swap_movements a paid got ft referral
    /\ paid = reserve tin p' - reserve tin p + on ft tin fee
    /\ reserve tout p - reserve tout p' = got + on ft tout fee
    /\ fee_parts fee (is_some (sa_referral a)) trading protocol referral
    /\ fee = trading + protocol + referral
    /\ 0 <= num <= 990000000
    /\ fee = ceil_div (num * (if c_collect_fee_mode (w_config w) =? 0
                              then match sa_dir a with QuoteToBase => paid | BaseToQuote => got + fee end
                              else got + fee)) 1000000000
    /\ (forall t, t = TBase \/ t = TQuote ->
         creator_fees t p' = creator_fees t p
            + on ft t (trading * c_creator_trading_fee_pct (w_config w) / 100)
         /\ partner_fees t p' + creator_fees t p'
            = partner_fees t p + creator_fees t p + on ft t trading
         /\ protocol_fees t p' = protocol_fees t p + on ft t protocol
         /\ vault t w' - vault t w = reserve t p' - reserve t p + on ft t (trading + protocol))
    /\ (sa_referral a = None -> referral = 0).
Proof.
  intros R H. destruct (swap_observed_num _ _ _ R H) as (paid & got & fee & tr & pr & rf & num
   & A1 & A2 & A3 & A4 & A5 & A6 & A7 & A8 & A9 & A10 & A11 & A12 & A13 & A14 & A15 & _).
  exists paid, got, fee, tr, pr, rf, num. repeat (split; [assumption|]). assumption.
Qed.

(** ** C01: a swap creates and loses no token unit *)
Theorem C01_swap_conserves_tokens : forall w a w',
  reachable w -> exec w (OSwap a) = Ok w' ->
  exists paid got trading protocol referral ft,
    (ft = token_in (sa_dir a) \/ ft = token_out (sa_dir a))
    /\ 0 <= paid /\ 0 <= got /\ 0 <= trading /\ 0 <= protocol /\ 0 <= referral
    /\ (sa_referral a = None -> referral = 0)
    (* what moved between accounts *)
    /\ w_log w' = w_log w ++ swap_movements a paid got ft referral
    (* trader's payment = reserve increase + fees on the input side *)
    /\ paid = reserve (token_in (sa_dir a)) (w_pool w') - reserve (token_in (sa_dir a)) (w_pool w)
              + on ft (token_in (sa_dir a)) (trading + protocol + referral)
    (* reserve decrease = what the trader gets + fees on the output side *)
    /\ reserve (token_out (sa_dir a)) (w_pool w) - reserve (token_out (sa_dir a)) (w_pool w')
       = got + on ft (token_out (sa_dir a)) (trading + protocol + referral)
    (* the fee counters grow by exactly the fees *)
    /\ (forall t, t = TBase \/ t = TQuote ->
         partner_fees t (w_pool w') + creator_fees t (w_pool w')
         = partner_fees t (w_pool w) + creator_fees t (w_pool w) + on ft t trading
         /\ protocol_fees t (w_pool w') = protocol_fees t (w_pool w) + on ft t protocol
         (* the vault holds every unit *)
         /\ vault t w' - vault t w
            = reserve t (w_pool w') - reserve t (w_pool w) + on ft t (trading + protocol)).
Proof.
  intros w a w' R H. destruct (swap_observed _ _ _ R H) as (paid & got & fee & tr & pr & rf & num
   & C & P1 & P2 & P3 & P4 & P5 & LG & IN & OUT & _ & FE & _ & _ & CT & NR).
  eexists paid, got, tr, pr, rf, _. 
  split; [|split; [|split; [|split; [|split; [|split; [|split; [|split; [exact LG|]]]]]]]]; auto.
  { destruct (c_collect_fee_mode (w_config w) =? 0), (sa_dir a); simpl; auto. }
  subst fee. split; [exact IN|split; [exact OUT|]].
  intros t Ht. destruct (CT t Ht) as (_ & A & B & D). auto.
Qed.

(** Non-vacuity: four different swaps (buys, sells, exact in, exact out, with and without a
    referrer) succeed in the fixture history. *)
Example C01_cases :
  forallb (fun n =>
    match nth_error histA1 n with
    | Some (OSwap a) => is_ok (exec (run wA (firstn n histA1)) (OSwap a))
    | _ => false
    end) [0; 1; 2; 3; 4]%nat = true.
Proof. vm_compute. reflexivity. Qed.

(** ** C02: exact-in *)
Theorem C02_exact_in : forall w a w',
  reachable w -> sa_mode a = 0 -> exec w (OSwap a) = Ok w' ->
  exists got ft referral,
    w_log w' = w_log w ++ swap_movements a (sa_amount0 a) got ft referral
    /\ sa_amount1 a <= got.
Proof.
  intros w a w' R M H. destruct (reach_swap _ _ _ R H) as (K & F & HA & _ & r & fm & num & fee & gross
    & pf & cf & cur & p1 & E & PRE & PS).
  pose proof (log_movements _ _ _ _ _ _ _ _ _ _ _ E) as LG.
  exists (sr_output r), (ftok fm), (sr_referral r).
  unfold process_swap in PS. rewrite M in PS. simpl in PS.
  apply bind_ok in PS. destruct PS as (r' & S & PS).
  apply bind_ok in PS. destruct PS as (u & L & PS). apply Ok_inj in PS. subst r'.
  apply require_ok in L.
  apply reachable_inv in R.
  destruct (pre_swap_ok _ _ _ _ PRE) as (vt & EP).
  apply exact_in_facts in S; auto; [|rewrite EP; apply (iv_price _ R)].
  destruct S as (n & f & g & _ & _ & EI & _). rewrite EI in LG. split; [exact LG|lia].
Qed.

(** ** C03: exact-out *)
Theorem C03_exact_out : forall w a w',
  reachable w -> sa_mode a = 2 -> exec w (OSwap a) = Ok w' ->
  exists paid ft referral,
    w_log w' = w_log w ++ swap_movements a paid (sa_amount0 a) ft referral
    /\ paid <= sa_amount1 a.
Proof.
  intros w a w' R M H. destruct (reach_swap _ _ _ R H) as (K & F & HA & _ & r & fm & num & fee & gross
    & pf & cf & cur & p1 & E & PRE & PS).
  pose proof (log_movements _ _ _ _ _ _ _ _ _ _ _ E) as LG.
  exists (sr_included r), (ftok fm), (sr_referral r).
  unfold process_swap in PS. rewrite M in PS. simpl in PS.
  apply bind_ok in PS. destruct PS as (r' & S & PS).
  apply bind_ok in PS. destruct PS as (u & L & PS). apply Ok_inj in PS. subst r'.
  apply require_ok in L.
  apply reachable_inv in R.
  destruct (pre_swap_ok _ _ _ _ PRE) as (vt & EP).
  apply exact_out_facts in S; auto; [|rewrite EP; apply (iv_price _ R)].
  destruct S as (n & f & g & _ & _ & EI & _). rewrite EI in LG. split; [exact LG|lia].
Qed.

(** ** C06: the fee split *)
Theorem C06_fee_split : forall w a w',
  reachable w -> exec w (OSwap a) = Ok w' ->
  exists fee paid got referral ft,
    (* [fee] is all the trader is charged beyond the curve *)
    (ft = token_in (sa_dir a) \/ ft = token_out (sa_dir a))
    /\ w_log w' = w_log w ++ swap_movements a paid got ft referral
    /\ paid = reserve (token_in (sa_dir a)) (w_pool w') - reserve (token_in (sa_dir a)) (w_pool w)
              + on ft (token_in (sa_dir a)) fee
    /\ reserve (token_out (sa_dir a)) (w_pool w) - reserve (token_out (sa_dir a)) (w_pool w')
       = got + on ft (token_out (sa_dir a)) fee
    (* referral: 20% of the protocol's 20%, both rounded down, only with a referrer *)
    /\ referral = match sa_referral a with Some _ => fee * 20 / 100 * 20 / 100 | None => 0 end
    (* protocol and referral together: 20% rounded down; partner and creator: the rest *)
    /\ (protocol_fees ft (w_pool w') - protocol_fees ft (w_pool w)) + referral = fee * 20 / 100
    /\ (partner_fees ft (w_pool w') - partner_fees ft (w_pool w))
       + (creator_fees ft (w_pool w') - creator_fees ft (w_pool w)) = fee - fee * 20 / 100.
Proof.
  intros w a w' R H. destruct (swap_observed _ _ _ R H) as (paid & got & fee & tr & pr & rf & num
   & C & P1 & P2 & P3 & P4 & P5 & LG & IN & OUT & PA & FE & _ & _ & CT & NR).
  eexists fee, paid, got, rf, _.
  split; [|split; [exact LG|split; [exact IN|split; [exact OUT|]]]].
  { destruct (c_collect_fee_mode (w_config w) =? 0), (sa_dir a); simpl; auto. }
  set (ft := if c_collect_fee_mode (w_config w) =? 0 then TQuote else token_out (sa_dir a)) in *.
  assert (T : ft = TBase \/ ft = TQuote) by
   (unfold ft; destruct (c_collect_fee_mode (w_config w) =? 0), (sa_dir a); simpl; auto).
  destruct (CT ft T) as (_ & A & B & _). destruct PA as (PA1 & PA2 & PA3).
  assert (O : forall x, on ft ft x = x) by (intros; destruct T as [-> | ->]; reflexivity).
  rewrite O in A, B. clear - A B PA1 PA2 PA3.
  set (q := fee * 20 / 100) in *. clearbody q.
  split; [destruct (sa_referral a); exact PA2|]. lia.
Qed.

(** ** C07: partner and creator shares *)
Theorem C07_partner_creator_split : forall w a w',
  reachable w -> exec w (OSwap a) = Ok w' ->
  0 <= c_creator_trading_fee_pct (w_config w) <= 100
  /\ forall t, t = TBase \/ t = TQuote ->
  let partner := partner_fees t (w_pool w') - partner_fees t (w_pool w) in
  let creator := creator_fees t (w_pool w') - creator_fees t (w_pool w) in
  0 <= partner /\ 0 <= creator
  /\ creator = (partner + creator) * c_creator_trading_fee_pct (w_config w) / 100.
Proof.
  intros w a w' R H. destruct (swap_observed _ _ _ R H) as (paid & got & fee & tr & pr & rf & num
   & C & P1 & P2 & P3 & P4 & P5 & LG & IN & OUT & PA & FE & _ & _ & CT & NR).
  pose proof (ok_ctf _ (created_cfg_ok _ (iv_created _ (reachable_inv _ R)))) as PC.
  split; [exact PC|]. intros t Ht partner creator.
  destruct (CT t Ht) as (A & B & _). clear - A B P3 PC Ht. subst partner creator.
  set (k := c_creator_trading_fee_pct (w_config w)) in *.
  assert (D : 0 <= tr * k / 100 <= tr).
  { split; [apply div_nonneg; nia|apply Z.div_le_upper_bound; nia]. }
  set (ft := if c_collect_fee_mode (w_config w) =? 0 then TQuote else token_out (sa_dir a)) in *.
  unfold on in *.
  assert (S : partner_fees t (w_pool w') - partner_fees t (w_pool w)
     + (creator_fees t (w_pool w') - creator_fees t (w_pool w))
     = match ft, t with TBase, TBase | TQuote, TQuote => tr | _, _ => 0 end).
  { lia. }
  rewrite S. destruct Ht; subst t; destruct ft; rewrite ?Zdiv_0_l; lia.
Qed.

(** ** C08: fees are taken in the configured token *)
Theorem C08_fee_token : forall w a w',
  reachable w -> exec w (OSwap a) = Ok w' ->
  exists ft other paid got referral,
    (* collect mode 0: quote only; mode 1: the output token *)
    (c_collect_fee_mode (w_config w) = 0 /\ ft = TQuote
     \/ c_collect_fee_mode (w_config w) = 1 /\ ft = token_out (sa_dir a))
    /\ (ft = TQuote /\ other = TBase \/ ft = TBase /\ other = TQuote)
    (* the referrer is paid in that token *)
    /\ w_log w' = w_log w ++ swap_movements a paid got ft referral
    (* no fee counter of the other token moves, and its vault moves with its reserve *)
    /\ partner_fees other (w_pool w') = partner_fees other (w_pool w)
    /\ creator_fees other (w_pool w') = creator_fees other (w_pool w)
    /\ protocol_fees other (w_pool w') = protocol_fees other (w_pool w)
    /\ vault other w' - vault other w
       = reserve other (w_pool w') - reserve other (w_pool w).
Proof.
  intros w a w' R H. destruct (swap_observed _ _ _ R H) as (paid & got & fee & tr & pr & rf & num
   & C & P1 & P2 & P3 & P4 & P5 & LG & IN & OUT & PA & FE & _ & _ & CT & NR).
  set (ft := if c_collect_fee_mode (w_config w) =? 0 then TQuote else token_out (sa_dir a)) in *.
  exists ft, (match ft with TBase => TQuote | _ => TBase end), paid, got, rf.
  split. { unfold ft. destruct C as [C|C]; rewrite C; simpl; auto. }
  assert (T : ft = TBase \/ ft = TQuote) by
   (unfold ft; destruct (c_collect_fee_mode (w_config w) =? 0), (sa_dir a); simpl; auto).
  split. { destruct T as [-> | ->]; auto. }
  split; [exact LG|].
  assert (O : match ft with TBase => TQuote | _ => TBase end = TBase
     \/ match ft with TBase => TQuote | _ => TBase end = TQuote) by (destruct ft; auto).
  destruct (CT _ O) as (A & B & D & G).
  clear - A B D G T. destruct T as [-> | ->]; simpl in *; lia.
Qed.

(** Both fee tokens occur: a buy in an output-token pool pays fees in base. *)
Example C08_base_fee :
  match exec wB (swp 500 (Some 600) QuoteToBase 0 2000000000 0 1700000000 plain_view) with
  | Ok w' => (0 <? p_partner_base (w_pool w')) && (p_partner_quote (w_pool w') =? 0)
  | Err _ => false
  end = true.
Proof. vm_compute. reflexivity. Qed.

(** ** C10: buys never lower, sells never raise the price *)
Theorem C10_price_direction : forall w a w',
  reachable w -> exec w (OSwap a) = Ok w' ->
  match sa_dir a with
  | QuoteToBase => p_price (w_pool w) <= p_price (w_pool w')
  | BaseToQuote => p_price (w_pool w') <= p_price (w_pool w)
  end.
Proof.
  intros w a w' R H. destruct (reach_swap _ _ _ R H) as (K & F & HA & _ & r & fm & num & fee & gross
    & pf & cf & cur & p1 & E & _ & _).
  pose proof (sf_dir _ _ _ _ _ _ _ _ (se_facts _ _ _ _ _ _ _ _ _ _ _ E)) as D.
  destruct (effect_applied _ _ _ _ _ _ _ _ _ _ _ E) as (p2 & AP & SM).
  destruct SM as (SP & _). rewrite SP, (ap_price _ _ _ _ _ _ _ _ _ AP).
  unfold price_moves in D. destruct (sa_dir a); auto.
Qed.

(** ** C11: rounding favours the pool, against the exact curve *)
Theorem C11_rounding_favours_pool : forall w a w',
  reachable w -> exec w (OSwap a) = Ok w' ->
  let c := w_config w in
  let quote x := quote_area (c_start c) (curve_points c) x in
  let base x := base_area (c_start c) (curve_points c) x in
  quote (p_price (w_pool w')) - quote (p_price (w_pool w))
    <= (p_quote (w_pool w') - p_quote (w_pool w)) * 2 ^ 128
  /\ (base (p_price (w_pool w)) - base (p_price (w_pool w'))
      <= inject_Z (p_base (w_pool w') - p_base (w_pool w)))%Q.
Proof.
  intros w a w' R H c quote base.
  destruct (reach_swap _ _ _ R H) as (K & F & HA & _ & r & fm & num & fee & gross
    & pf & cf & cur & p1 & E & _ & _).
  pose proof (sf_moves _ _ _ _ _ _ _ _ (se_facts _ _ _ _ _ _ _ _ _ _ _ E)) as M.
  destruct (effect_applied _ _ _ _ _ _ _ _ _ _ _ E) as (p2 & AP & SM).
  destruct SM as (SP & SB & SQ & _).
  rewrite SP, SB, SQ, (ap_price _ _ _ _ _ _ _ _ _ AP), (ap_quote _ _ _ _ _ _ _ _ _ AP),
    (ap_base _ _ _ _ _ _ _ _ _ AP).
  assert (WF := co_wf _ _ (ok_curve _ K)). assert (ST := co_start _ _ (ok_curve _ K)).
  pose proof (moves_quote _ _ _ _ _ _ WF M) as MQ.
  pose proof (moves_base _ _ _ _ _ _ ST WF M) as MB.
  rewrite pow128. subst c quote base. cbv beta. split.
  - clear - MQ. replace (p_quote (w_pool w) + fi_dq (sa_dir a) (sr_excluded r) gross - p_quote (w_pool w))
      with (fi_dq (sa_dir a) (sr_excluded r) gross) by lia. exact MQ.
  - clear - MB. replace (p_base (w_pool w) + fi_db (sa_dir a) (sr_excluded r) gross - p_base (w_pool w))
      with (fi_db (sa_dir a) (sr_excluded r) gross) by lia. lra.
Qed.

(** ** C04: partial fill *)

(** With the rate limiter out of force both directions of the fee computation use one rate. *)
Lemma num_same c p cur a1 a2 d el n1 n2 :
  ~ limiter_active c (p_activation p) cur d ->
  num_included c p cur a1 d el = Ok n1 -> num_excluded c p cur a2 d el = Ok n2 -> n1 = n2.
Proof.
  intros NL H1 H2. unfold num_included, num_excluded in *. destruct el; [congruence|].
  unfold total_num_included, total_num_excluded in *.
  apply bind_ok in H1. destruct H1 as (b1 & B1 & H1).
  apply bind_ok in H2. destruct H2 as (b2 & B2 & H2).
  assert (b1 = b2); [|subst; congruence].
  unfold base_num_included, base_num_excluded in *.
  destruct ((bf_mode (pf_base (c_fees c)) =? 0) || (bf_mode (pf_base (c_fees c)) =? 1)); [congruence|].
  destruct (bf_mode (pf_base (c_fees c)) =? 2) eqn:M2; [|discriminate].
  apply bind_ok in B1. destruct B1 as (x1 & X1 & B1).
  apply bind_ok in B2. destruct B2 as (x2 & X2 & B2).
  assert (x1 = x2) by congruence. subst x2. destruct x1; [|congruence]. exfalso. apply NL.
  unfold limiter_active. cbv zeta.
  unfold rl_applied, rl_is_zero in X1.
  destruct ((bf_third (pf_base (c_fees c)) =? 0) && (bf_second (pf_base (c_fees c)) =? 0)
     && (bf_first (pf_base (c_fees c)) =? 0)) eqn:Z0; [discriminate|].
  split; [lia|]. split. { intros (q1 & q2 & q3). rewrite q1, q2, q3 in Z0. discriminate. }
  destruct d; [discriminate|]. split; [reflexivity|].
  apply bind_ok in X1. destruct X1 as (l & L & X1). apply sadd_ok in L. apply Ok_inj in X1. lia.
Qed.

Lemma net_mono x y num : 0 <= x -> x <= y -> 0 <= num <= FEE_DENOMINATOR ->
  x - cdiv (x * num) FEE_DENOMINATOR <= y - cdiv (y * num) FEE_DENOMINATOR.
Proof.
  intros. assert (cdiv (y * num) FEE_DENOMINATOR <= y - x + cdiv (x * num) FEE_DENOMINATOR); [|lia].
  apply cdiv_le; [reflexivity|].
  pose proof (cdiv_ub (x * num) FEE_DENOMINATOR ltac:(reflexivity)). nia.
Qed.

Lemma current_point_eq c slot time cur :
  current_point c slot time = Ok cur -> cur = point_of c slot time.
Proof.
  unfold current_point, activation_of, point_of. intros H.
  destruct (c_activation_type c =? 0); [simpl in H; congruence|].
  destruct (c_activation_type c =? 1); simpl in H; congruence.
Qed.

(** [paid <= sa_amount0 a] is false while a rate limiter is in force (see the counterexample
    below) and holds whenever it is not. The part that reaches the reserve never exceeds the offer.
    PropPart.v bounds the excess while the limiter is in force ([C04_partial_fill]). *)
Theorem C04_outside_limiter : forall w a w',
  reachable w -> sa_mode a = 1 -> exec w (OSwap a) = Ok w' ->
  exists paid got ft referral,
    w_log w' = w_log w ++ swap_movements a paid got ft referral
    /\ sa_amount1 a <= got
    /\ reserve (token_in (sa_dir a)) (w_pool w') - reserve (token_in (sa_dir a)) (w_pool w)
       <= sa_amount0 a
    /\ (~ limiter_active (w_config w) (p_activation (w_pool w))
            (point_of (w_config w) (sa_slot a) (sa_now a)) (sa_dir a) ->
        paid <= sa_amount0 a).
Proof.
  intros w a w' R M H. destruct (reach_swap _ _ _ R H) as (K & F & HA & _ & r & fm & num & fee & gross
    & pf & cf & cur & p1 & E & PRE & PS).
  pose proof (log_movements _ _ _ _ _ _ _ _ _ _ _ E) as LG.
  exists (sr_included r), (sr_output r), (ftok fm), (sr_referral r).
  unfold process_swap in PS. rewrite M in PS. simpl in PS.
  apply bind_ok in PS. destruct PS as (r' & S & PS).
  apply bind_ok in PS. destruct PS as (u & L & PS). apply Ok_inj in PS. subst r'.
  apply require_ok in L.
  apply reachable_inv in R.
  destruct (pre_swap_ok _ _ _ _ PRE) as (vt & EP).
  apply partial_facts in S; auto; [|rewrite EP; apply (iv_price _ R)].
  destruct S as (n0 & n & f & g & N0 & SF & A & B & C).
  split; [exact LG|]. split; [lia|].
  pose proof (num_included_bounds _ _ _ _ _ _ _ F HA N0) as NB0.
  pose proof (sf_left _ _ _ _ _ _ _ _ SF) as LN.
  assert (EXB : sr_excluded r <= sa_amount0 a).
  { destruct (fm_on_input fm); [|lia].
    assert (0 <= cdiv (sa_amount0 a * n0) FEE_DENOMINATOR) by (apply cdiv_nonneg; [nia|reflexivity]).
    lia. }
  split.
  { destruct (effect_applied _ _ _ _ _ _ _ _ _ _ _ E) as (p2 & AP & SM).
    destruct SM as (_ & M1 & M2 & _). destruct AP as [_ _ _ PB PQ _ _ _ _ _ _ _ _ _ _ _ _ _ _ _].
    unfold reserve, token_in, fi_dq, fi_db in *. destruct (sa_dir a); lia. }
  intros NL. destruct (Z.eq_dec (sr_left r) 0) as [Z0|Z0].
  - destruct (A Z0) as (_ & ->). lia.
  - assert (LP : 0 < sr_left r) by lia. destruct (B LP) as (B1 & B2).
    destruct (fm_on_input fm) eqn:OI; [|destruct (B2 eq_refl); lia].
    specialize (B1 eq_refl).
    pose proof (current_point_eq _ _ _ _ (se_point _ _ _ _ _ _ _ _ _ _ _ E)) as CP.
    assert (AC : p_activation p1 = p_activation (w_pool w)) by (rewrite EP; reflexivity).
    rewrite <- CP, <- AC in NL. pose proof (num_same _ _ _ _ _ _ _ _ _ NL N0 B1). subst n.
    pose proof (sf_fee _ _ _ _ _ _ _ _ SF) as FE. pose proof (sf_in _ _ _ _ _ _ _ _ SF) as IN.
    rewrite OI in FE, IN.
    destruct (Z_le_gt_dec (sr_included r) (sa_amount0 a)) as [G|G]; auto. exfalso.
    assert (NB : 0 <= n0 <= FEE_DENOMINATOR) by
      (unfold MAX_FEE_NUMERATOR, FEE_DENOMINATOR in *; lia).
    pose proof (net_mono (sa_amount0 a) (sr_included r) n0 HA ltac:(lia) NB). lia.
Qed.

(** While the limiter is in force the trader can be charged more than was offered: offering
    105804207281 takes 105804207311 from the trader. *)
Theorem C04_limiter_overcharge_refuted :
  exists w a w' paid got ft referral,
    reachable w /\ sa_mode a = 1 /\ exec w (OSwap a) = Ok w'
    /\ w_log w' = w_log w ++ swap_movements a paid got ft referral
    /\ sa_amount0 a < paid.
Proof.
  exists (run wD []).
  exists (mkSwapArgs 500 None QuoteToBase 1 105804207281 0 1020 1700000010 plain_view).
  exists (get dummy_world (exec wD (swp 500 None QuoteToBase 1 105804207281 0 1700000010 plain_view))).
  exists 105804207311, 51914418604543, TQuote, 0.
  split; [apply reachD|]. vm_compute. repeat split; reflexivity.
Qed.

Example C04_case : ~ limiter_active (w_config wA) (p_activation (w_pool wA))
    (point_of (w_config wA) 1000 1700000900) QuoteToBase
  /\ all_ok wA (histA1 ++ histA2) = true.
Proof. split; [|vm_compute; reflexivity]. unfold limiter_active. simpl. intros (H & _). discriminate. Qed.
