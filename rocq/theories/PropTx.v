(** * Transactions: C41, C42. *)
From Coq Require Import ZArith QArith List Bool Lia ZifyBool.
From Verif Require Import Base MathModel CurveModel FeeModel ConfigModel PoolModel TxModel
  SystemModel Spec Lib ConfigProofs FeeProofs SwapProofs InvProofs InvReach PropSwap Effects Frame
  PropFees PropLimiter PropRate Fixtures FixturesReach TxTree.
Import ListNotations.
Open Scope Z_scope.

(** [x] comes before [y] in [l]. *)
Fixpoint precedes {A} (l : list A) (x y : A) : Prop :=
  match l with [] => False | z :: r => (z = x /\ In y r) \/ precedes r x y end.

Lemma precedes_app {A} (a b : list A) x y :
  precedes (a ++ b) x y -> precedes a x y \/ (In x a /\ In y b) \/ precedes b x y.
Proof.
  induction a as [|z a IH]; simpl; [auto|]. intros [(-> & H)|H].
  - apply in_app_or in H. destruct H; auto.
  - destruct (IH H) as [|[(?&?)|]]; auto.
Qed.

Lemma precedes_in {A} (l : list A) x y : precedes l x y -> In x l /\ In y l.
Proof.
  induction l; simpl; [tauto|]. intros [(-> & H)|H]; [auto|]. destruct (IHl H). auto.
Qed.

Lemma visit_eq sv bf tp h sb i l :
  visit sv bf tp h sb (INode i l) = (i, mkView (sv i) bf tp h sb) :: visit_calls sv bf tp (h + 1) [] l.
Proof.
  simpl. f_equal. generalize (@nil ixn) as s. induction l; intros s; simpl; [reflexivity|].
  f_equal. apply IHl.
Qed.

(** What every visited instruction observes. *)
Definition tree_ind' (P : itree -> Prop)
  (H : forall i l, (forall c, In c l -> P c) -> P (INode i l)) : forall t, P t :=
  fix F t := match t with INode i l => H i l
    ((fix G l : forall c, In c l -> P c :=
       match l with
       | [] => fun c (I : In c []) => match I with end
       | d :: r => fun c I => match I with or_introl E => eq_ind d P (F d) c E | or_intror J => G r c J end
       end) l) end.

Lemma visit_view sv t : forall bf tp h sb i v, In (i, v) (visit sv bf tp h sb t) ->
  within i t /\ v_before v = bf /\ v_current v = tp /\ v_sysvar v = sv i
  /\ ((i = root t /\ v_height v = h /\ v_siblings v = sb)
      \/ (h < v_height v /\ exists i' c l, t = INode i' l /\ In c l /\ within i c)).
Proof.
  induction t as [i0 l IH] using tree_ind'. intros bf tp h sb i v H. rewrite visit_eq in H.
  destruct H as [H|H].
  - injection H as <- <-. split; [constructor|]. repeat (split; [reflexivity|]). left. auto.
  - assert (G : exists c s, In c l /\ In (i, v) (visit sv bf tp (h + 1) s c)).
    { revert H. generalize (@nil ixn) as s. clear IH. induction l as [|d l IHl]; intros s H; [destruct H|].
      simpl in H. apply in_app_or in H. destruct H as [H|H].
      - exists d, s. simpl. auto.
      - destruct (IHl _ H) as (c & s' & C & D). exists c, s'. simpl. auto. }
    destruct G as (c & s & C & G). destruct (IH c C _ _ _ _ _ _ G) as (W & B1 & B2 & B3 & B4).
    split; [apply (within_call _ _ _ c); auto|]. repeat (split; [assumption|]). right.
    split; [destruct B4 as [(_ & E & _)|(E & _)]; lia|]. exists i0, c, l. auto.
Qed.

Lemma within_accounts t i : wf_tree t -> within i t -> incl (ix_accounts i) (ix_accounts (root t)).
Proof.
  intros W. revert i. induction W as [j l A S _ IH]. intros i H. inversion H; subst; [apply incl_refl|].
  simpl. eapply incl_tran; [apply IH; eauto|apply A; auto].
Qed.

Lemma swap_accounts pool i : swap_of pool i -> In pool (ix_accounts i).
Proof. intros (_ & _ & N). eapply nth_error_In; eauto. Qed.

Lemma include_swap pool i : swap_of pool i -> include_pool_swap i pool = Ok true.
Proof. intros (_ & K & N). unfold include_pool_swap. rewrite K, N. simpl. rewrite Z.eqb_refl. reflexivity. Qed.

Lemma siblings_no_swap l pool : check_siblings l pool = Ok tt -> forall i, In i l -> ~ swap_of pool i.
Proof.
  induction l as [|j l IH]; intros H i I S; [destruct I|]. cbn [check_siblings] in H.
  apply bind_ok in H. destruct H as (u & U & H). destruct I as [->|I]; [|apply (IH H i I S)].
  pose proof S as (P & _). rewrite P, Z.eqb_refl, (include_swap _ _ S) in U. discriminate.
Qed.

Lemma before_no_swap l pool : check_before l pool = Ok tt -> forall i, In i l ->
  ~ swap_of pool i /\ (ix_program i <> SELF -> ~ In pool (ix_accounts i)).
Proof.
  induction l as [|j l IH]; intros H i I; [destruct I|]. cbn [check_before] in H.
  apply bind_ok in H. destruct H as (u & U & H). destruct I as [->|I]; [|apply (IH H i I)].
  split.
  - intros S. pose proof S as (P & _). rewrite P, Z.eqb_refl in U. cbn [negb] in U.
    rewrite (include_swap _ _ S) in U. discriminate.
  - intros P X. replace (ix_program i =? SELF) with false in U by lia. cbn [negb] in U.
    apply require_ok in U. apply negb_true_iff in U.
    assert (existsb (fun a => a =? pool) (ix_accounts i) = true).
    { apply existsb_exists. exists pool. split; [exact X|apply Z.eqb_refl]. }
    congruence.
Qed.

(** A swap anywhere below a top-level instruction shows up in that instruction's accounts, or is it. *)
Lemma swap_below t pool i : wf_tree t -> within i t -> swap_of pool i ->
  swap_of pool (root t) \/ (ix_program (root t) <> SELF /\ In pool (ix_accounts (root t))).
Proof.
  intros W X S. destruct (Z.eq_dec (ix_program (root t)) SELF) as [E|E].
  - left. inversion W as [j l A B C]; subst. simpl in E. inversion X; subst; [exact S|].
    pose proof S as (P & K & _). specialize (B E c i H2 H3 P). rewrite K in B. discriminate.
  - right. split; [exact E|]. apply (within_accounts _ _ W X). apply swap_accounts. exact S.
Qed.

Lemma validate_inv' v pool : validate_single_swap v pool = Ok tt ->
  v_sysvar v = true
  /\ (ix_program (v_current v) <> SELF -> v_height v <= 2 /\ check_siblings (v_siblings v) pool = Ok tt)
  /\ check_before (v_before v) pool = Ok tt.
Proof.
  unfold validate_single_swap. intros H. apply bind_ok in H. destruct H as (u & A & H). apply require_ok in A.
  apply bind_ok in H. destruct H as (u2 & B & H). split; [exact A|]. split; [|exact H].
  intros N. replace (ix_program (v_current v) =? SELF) with false in B by lia. cbn [negb] in B.
  apply bind_ok in B. destruct B as (u3 & B1 & B2). apply require_ok in B1. destruct u2. split; [lia|exact B2].
Qed.

(** Two swaps below one call list, both direct calls: the later one sees the earlier one. *)
Lemma calls_siblings sv bf tp h l : forall sb i v j u,
  precedes (visit_calls sv bf tp h sb l) (i, v) (j, u) -> v_height v <= h -> v_height u <= h ->
  In i (v_siblings u).
Proof.
  assert (KEEP : forall l sb j u x, In (j, u) (visit_calls sv bf tp h sb l) -> v_height u <= h -> In x sb ->
     In x (v_siblings u)).
  { clear. induction l as [|c l IH]; intros sb j u x H HH X; [destruct H|].
    simpl in H. apply in_app_or in H. destruct H as [H|H].
    - apply visit_view in H. destruct H as (_ & _ & _ & _ & [(_ & _ & ->)|(L & _)]); [exact X|lia].
    - apply (IH _ _ _ _ H HH). simpl. auto. }
  induction l as [|c l IH]; intros sb i v j u P HV HU; [destruct P|].
  simpl in P. apply precedes_app in P. destruct P as [P|[(P & Q)|P]].
  - (* both below the same call: only one of them can be the call itself *)
    exfalso. destruct c as [k r]. rewrite visit_eq in P. simpl in P. 
    assert (D : forall j u, In (j, u) (visit_calls sv bf tp (h + 1) [] r) -> h < v_height u).
    { clear. generalize (@nil ixn) as s. induction r as [|c r IH]; intros s j u H; [destruct H|].
      simpl in H. apply in_app_or in H. destruct H as [H|H]; [|eapply IH; eauto].
      apply visit_view in H. destruct H as (_ & _ & _ & _ & [(_ & E & _)|(L & _)]); lia. }
    destruct P as [(_ & P)|P].
    + apply D in P. lia.
    + apply precedes_in in P. destruct P as (_ & P). apply D in P. lia.
  - apply visit_view in P. destruct P as (_ & _ & _ & _ & [(-> & _ & _)|(L & _)]); [|lia].
    eapply KEEP; [exact Q|exact HU|simpl; auto].
  - apply (IH _ _ _ _ _ P HV HU).
Qed.

(** ** C42: in one transaction at most one swap per pool passes the single-swap check *)
Theorem C42_one_checked_swap : forall has_sysvar tx pool i vi j vj,
  (forall t, In t tx -> wf_tree t) ->
  precedes (visit_tx has_sysvar [] tx) (i, vi) (j, vj) ->
  swap_of pool i -> swap_of pool j ->
  validate_single_swap vi pool = Ok tt -> validate_single_swap vj pool = Ok tt -> False.
Proof.
  intros sv tx pool i vi j vj W P SI SJ VI VJ. revert P. generalize (@nil ixn) as bf.
  induction tx as [|t tx IH]; intros bf P; [destruct P|]. simpl in P.
  assert (LATER : forall tx bf x, In (j, vj) (visit_tx sv bf tx) -> In x bf -> In x (v_before vj)).
  { clear. induction tx as [|t tx IH]; intros bf x H X; [destruct H|]. simpl in H. apply in_app_or in H.
    destruct H as [H|H].
    - apply visit_view in H. destruct H as (_ & -> & _). exact X.
    - apply (IH _ _ H). apply in_or_app. auto. }
  apply precedes_app in P. destruct P as [P|[(P & Q)|P]].
  - (* the same top-level instruction *)
    assert (WT : wf_tree t) by (apply W; left; reflexivity).
    pose proof (precedes_in _ _ _ P) as (PI & PJ).
    destruct (visit_view _ _ _ _ _ _ _ _ PI) as (WI & _ & CI & _ & _).
    destruct (visit_view _ _ _ _ _ _ _ _ PJ) as (WJ & _ & CJ & _ & _).
    apply validate_inv' in VI, VJ. destruct VI as (_ & HI & _), VJ as (_ & HJ & _).
    rewrite CI in HI. rewrite CJ in HJ. destruct t as [k l]. simpl in HI, HJ. rewrite visit_eq in P. simpl in P.
    destruct (Z.eq_dec (ix_program k) SELF) as [E|E].
    + (* a top-level swap makes no further swap *)
      assert (D : forall x u, In (x, u) (visit_calls sv bf k 2 [] l) -> swap_of pool x -> False).
      { intros x u H (S1 & S2 & _). inversion WT as [k' l' _ B _]; subst.
        assert (G : exists c, In c l /\ within x c).
        { revert H. generalize (@nil ixn) as s. clear. induction l as [|c l IH]; intros s H; [destruct H|].
          simpl in H. apply in_app_or in H. destruct H as [H|H].
          - exists c. apply visit_view in H. destruct H. simpl. auto.
          - destruct (IH _ H) as (d & D1 & D2). exists d. simpl. auto. }
        destruct G as (c & C & G). specialize (B E c x C G S1). rewrite S2 in B. discriminate. }
      destruct P as [(_ & P)|P]; [apply (D _ _ P SJ)|].
      apply precedes_in in P. destruct P as (_ & P). apply (D _ _ P SJ).
    + destruct (HI E) as (HI1 & _). destruct (HJ E) as (HJ1 & HJ2).
      destruct P as [(X & P)|P].
      * injection X as <- _. destruct SI as (SI & _). contradiction.
      * apply (siblings_no_swap _ _ HJ2 i); [|exact SI]. eapply calls_siblings; eauto.
  - (* an earlier top-level instruction *)
    assert (WT : wf_tree t) by (apply W; left; reflexivity).
    apply visit_view in P. destruct P as (WI & _).
    apply validate_inv' in VJ. destruct VJ as (_ & _ & VJ).
    destruct (before_no_swap _ _ VJ (root t)) as (N1 & N2).
    { apply (LATER _ _ _ Q). apply in_or_app. simpl. auto. }
    destruct (swap_below _ _ _ WT WI SI) as [X|(X & Y)]; [apply (N1 X)|apply (N2 X Y)].
  - apply (IH (fun x X => W x (or_intror X)) _ P).
Qed.

(** Top-level instructions of this program before a checked swap never swap on its pool, and
    foreign ones never even mention it. *)
Theorem C42_nothing_before : forall has_sysvar tx pool j vj,
  In (j, vj) (visit_tx has_sysvar [] tx) -> validate_single_swap vj pool = Ok tt ->
  forall i, In i (v_before vj) -> ~ swap_of pool i /\ (ix_program i <> SELF -> ~ In pool (ix_accounts i)).
Proof.
  intros sv tx pool j vj _ V i I. apply validate_inv' in V. destruct V as (_ & _ & V).
  apply (before_no_swap _ _ V i I).
Qed.

(** While the limiter is in force a buy runs the check. *)
Lemma limited_swap_checked w a w' : reachable w -> exec w (OSwap a) = Ok w' ->
  limiter_active (w_config w) (p_activation (w_pool w)) (point_of (w_config w) (sa_slot a) (sa_now a)) (sa_dir a) ->
  validate_single_swap (sa_view a) (w_key w) = Ok tt.
Proof.
  intros R H LA. pose proof (iv_created _ (reachable_inv _ R)) as CR.
  destruct LA as (M & NZ & D & W).
  unfold exec in H. apply bind_ok in H. destruct H as (u & _ & H). unfold do_swap in H.
  apply bind_ok in H. destruct H as (x & H & _). unfold swap_full in H.
  apply bind_ok in H. destruct H as (u1 & _ & H). apply bind_ok in H. destruct H as (cur & CU & H).
  apply bind_ok in H. destruct H as (u2 & RL & _). apply current_point_eq in CU. subst cur.
  unfold rate_limit_check in RL. cbv zeta in RL. rewrite M in RL. change (2 =? 2) with true in RL. cbv iota in RL.
  apply bind_ok in RL. destruct RL as (ap & AP & RL).
  destruct (limiter_cases _ CR M) as (CL & [Z|L]); [contradiction|].
  apply rl_applied_inv in AP; auto. rewrite D in AP.
  replace (point_of (w_config w) (sa_slot a) (sa_now a) <=? p_activation (w_pool w) + bf_second (pf_base (c_fees (w_config w))))
    with true in AP by lia.
  subst ap. destruct u2. exact RL.
Qed.

(** So no transaction, however its calls are nested, performs two rate-limited buys on one pool. *)
Theorem C42_limited_once_per_transaction : forall has_sysvar tx i vi j vj w1 a1 w1' w2 a2 w2',
  (forall t, In t tx -> wf_tree t) ->
  precedes (visit_tx has_sysvar [] tx) (i, vi) (j, vj) ->
  (* the two instructions are swaps on the same pool, executed in states w1 and w2 *)
  reachable w1 -> reachable w2 -> w_key w2 = w_key w1 ->
  swap_of (w_key w1) i -> swap_of (w_key w1) j ->
  sa_view a1 = vi -> exec w1 (OSwap a1) = Ok w1' ->
  sa_view a2 = vj -> exec w2 (OSwap a2) = Ok w2' ->
  limiter_active (w_config w1) (p_activation (w_pool w1)) (point_of (w_config w1) (sa_slot a1) (sa_now a1)) (sa_dir a1) ->
  limiter_active (w_config w2) (p_activation (w_pool w2)) (point_of (w_config w2) (sa_slot a2) (sa_now a2)) (sa_dir a2) ->
  False.
Proof.
  intros sv tx i vi j vj w1 a1 w1' w2 a2 w2' W P R1 R2 KK SI SJ V1 E1 V2 E2 L1 L2.
  pose proof (limited_swap_checked _ _ _ R1 E1 L1) as C1. pose proof (limited_swap_checked _ _ _ R2 E2 L2) as C2.
  rewrite V1 in C1. rewrite V2, KK in C2. eapply C42_one_checked_swap; eauto.
Qed.

(** The stronger reading, "no other swap on the pool comes before in the transaction", is false:
    a swap that is itself not limited (a sell) may hide one call deeper in an earlier sibling. *)
Theorem C42_unlimited_nested_refuted : exists tx i vi j vj,
  (forall t, In t tx -> wf_tree t)
  /\ precedes (visit_tx (fun _ => true) [] tx) (i, vi) (j, vj)
  /\ swap_of 77 i /\ swap_of 77 j /\ validate_single_swap vj 77 = Ok tt.
Proof.
  set (s := mkIx SELF [2; 3; 77] KSwap).
  set (router := mkIx 9 [2; 3; 77] KOther). set (inner := mkIx 8 [2; 3; 77] KOther).
  exists [INode router [INode inner [INode s []]; INode s []]].
  exists s, (mkView true [] router 3 []), s, (mkView true [] router 2 [inner]).
  assert (WS : wf_tree (INode s [])).
  { constructor; [intros c []|intros _ c j []|intros c []]. }
  assert (WI : wf_tree (INode inner [INode s []])).
  { constructor; [intros c [<-|[]]; apply incl_refl|discriminate|intros c [<-|[]]; exact WS]. }
  split; [|split; [|split; [|split]]].
  - intros t [<-|[]]. constructor.
    + intros c [<-|[<-|[]]]; apply incl_refl.
    + discriminate.
    + intros c [<-|[<-|[]]]; assumption.
  - simpl. auto 10.
  - repeat split.
  - repeat split.
  - reflexivity.
Qed.

(** ** C41 *)

(** What entitles a swap to the minimum fee. *)
Definition bundle_entitled (w : world) (a : swap_args) : Prop :=
  c_first_swap_min_fee (w_config w) = 1 /\ p_has_swap (w_pool w) = 0 /\ sa_referral a = None
  /\ v_sysvar (sa_view a) = true /\ ix_program (v_current (sa_view a)) = SELF
  /\ exists i, In i (v_before (sa_view a)) /\ init_of (w_key w) i.

Lemma eligible_iff w a :
  first_swap_eligible (w_config w) (w_pool w) (w_key w) (is_some (sa_referral a)) (sa_view a) = true
  <-> bundle_entitled w a.
Proof.
  unfold first_swap_eligible, bundle_entitled, validate_contain_init.
  assert (EX : existsb (fun i => is_pool_init i (w_key w)) (v_before (sa_view a)) = true
     <-> exists i, In i (v_before (sa_view a)) /\ init_of (w_key w) i).
  { rewrite existsb_exists. split; intros (i & I & X); exists i; split; auto.
    - unfold is_pool_init in X. apply andb_true_iff in X. destruct X as (X & X3).
      apply andb_true_iff in X. destruct X as (X1 & X2). split; [lia|].
      split; [destruct (ix_kindof i); [discriminate|reflexivity|discriminate]|].
      destruct (nth_error (ix_accounts i) 5); [|discriminate]. f_equal. lia.
    - unfold is_pool_init. destruct X as (X1 & X2 & X3). rewrite X1, X2, X3. simpl. rewrite Z.eqb_refl. reflexivity. }
  split.
  - intros H. apply andb_true_iff in H. destruct H as (H & V). apply andb_true_iff in H. destruct H as (H1 & H2).
    split; [lia|]. split; [lia|]. destruct (sa_referral a); [discriminate|]. split; [reflexivity|].
    cbn [is_some negb require bind] in V. destruct (v_sysvar (sa_view a)); [|discriminate]. split; [reflexivity|].
    cbn [require bind] in V. destruct (ix_program (v_current (sa_view a)) =? SELF) eqn:E; [|discriminate]. split; [lia|].
    apply EX. cbn [require bind] in V. destruct (existsb _ _); [reflexivity|discriminate].
  - intros (H1 & H2 & H3 & H4 & H5 & H6). apply EX in H6. rewrite H1, H2, H3, H4, H5. cbn [is_some negb require bind].
    rewrite H6. reflexivity.
Qed.

(** The rate [num] of every swap: the minimum base fee exactly for an entitled swap, otherwise the
    scheduled base fee plus the dynamic fee. *)
Theorem C41_min_fee_only_in_bundle : forall w a w',
  reachable w -> exec w (OSwap a) = Ok w' ->
  let c := w_config w in let b := pf_base (c_fees c) in
  let cur := point_of c (sa_slot a) (sa_now a) in let act := p_activation (w_pool w) in
  exists paid got fee referral ft num,
    let taxed := if c_collect_fee_mode c =? 0
                 then match sa_dir a with QuoteToBase => paid | BaseToQuote => got + fee end
                 else got + fee in
    w_log w' = w_log w ++ swap_movements a paid got ft referral
    /\ fee = ceil_div (num * taxed) 1000000000
    /\ (bundle_entitled w a -> min_base_fee_numerator b = Ok num)
    /\ (~ bundle_entitled w a -> exists amount base variable, 0 <= variable
          /\ (base_num_included b cur act (sa_dir a) amount = Ok base
              \/ base_num_excluded b cur act (sa_dir a) amount = Ok base)
          /\ num = Z.min 990000000 (base + variable)).
Proof.
  intros w a w' R H c b cur act. destruct (swap_observed_num _ _ _ R H) as (paid & got & fee & tr & pr & rf & num
   & C & P1 & P2 & P3 & P4 & P5 & LG & IN & OUT & _ & FS & NB & FE & _ & _ & vt & _ & _ & NF & _).
  exists paid, got, fee, rf. eexists. exists num. split; [exact LG|]. split; [exact FE|].
  destruct NF as (x & X & NF). unfold num_included, num_excluded in NF.
  pose proof (iv_created _ (reachable_inv _ R)) as CR. destruct (created_fees_ok c CR) as [TB TD _ _ _].
  split.
  - intros E. apply eligible_iff in E. rewrite E in NF. destruct NF; assumption.
  - intros E. rewrite <- eligible_iff in E.
    destruct (first_swap_eligible _ _ _ _ _); [contradiction E; reflexivity|].
    exists x. unfold total_num_included, total_num_excluded in NF.
    assert (G : exists bn, (base_num_included b cur act (sa_dir a) x = Ok bn
              \/ base_num_excluded b cur act (sa_dir a) x = Ok bn)
       /\ total_fee_numerator (pf_dyn (c_fees c)) bn vt = Ok num).
    { destruct NF as [N|N]; apply bind_ok in N; destruct N as (bn & B & N); exists bn; auto. }
    destruct G as (bn & B & T). exists bn.
    assert (B0 : 0 <= bn) by (destruct B as [B|B]; [eapply base_num_included_nonneg|eapply base_num_excluded_nonneg]; eauto).
    apply total_num_bounds in T; [|exact TD|exact B0]. destruct T as (v & _ & -> & V0 & _).
    exists v. split; [exact V0|]. split; [exact B|reflexivity].
Qed.

(** [p_has_swap] is 0 exactly as long as no swap has succeeded. *)
Fixpoint some_swap_ok (w : world) (ops : list op) : Prop :=
  match ops with
  | [] => False
  | o :: r => ((exists a, o = OSwap a) /\ exists w', exec w o = Ok w') \/ some_swap_ok (step w o) r
  end.

Lemma has_swap_run ops : forall w, Inv w -> (p_has_swap (w_pool w) = 0 \/ p_has_swap (w_pool w) = 1) ->
  (p_has_swap (w_pool (run w ops)) = 0 <-> p_has_swap (w_pool w) = 0 /\ ~ some_swap_ok w ops)
  /\ (p_has_swap (w_pool (run w ops)) = 0 \/ p_has_swap (w_pool (run w ops)) = 1).
Proof.
  induction ops as [|o ops IH]; intros w I B; [simpl; tauto|].
  change (run w (o :: ops)) with (run (step w o) ops). cbn [some_swap_ok].
  destruct (exec w o) as [w'|e] eqn:E.
  - rewrite (step_ok _ _ _ E).
    assert (I' : Inv w') by (rewrite <- (step_ok _ _ _ E); apply inv_step; auto).
    destruct (exec_frame _ _ _ I E) as (FR & SM).
    assert (G : ((exists a, o = OSwap a) -> p_has_swap (w_pool w') = 1)
       /\ (~ (exists a, o = OSwap a) -> p_has_swap (w_pool w') = p_has_swap (w_pool w))).
    { split.
      - intros (a & ->). apply (swap_mono _ _ _ I E).
      - intros N. destruct o; try exact (sk_swap _ _ SM). exfalso. apply N. eauto. }
    destruct G as (G1 & G2).
    assert (D : (exists a, o = OSwap a) \/ ~ (exists a, o = OSwap a)).
    { destruct o; try (right; intros (? & ?); discriminate). left; eexists; reflexivity. }
    destruct D as [D|D].
    + specialize (G1 D). destruct (IH w' I') as (A1 & A2); [auto|]. split; [|exact A2].
      split.
      * intros Z0. apply A1 in Z0. destruct Z0. lia.
      * intros (_ & X). exfalso. apply X. left. eauto.
    + specialize (G2 D). destruct (IH w' I') as (A1 & A2); [rewrite G2; auto|]. split; [|exact A2].
      rewrite A1, G2. split; intros (X & Y); (split; [exact X|]).
      * intros [(Q & _)|Q]; auto.
      * intros Q. apply Y. auto.
  - rewrite (step_err _ _ _ E). destruct (IH w I B) as (A1 & A2). split; [|exact A2].
    rewrite A1. split; intros (X & Y); (split; [exact X|]).
    + intros [(_ & w' & Q)|Q]; [discriminate|auto].
    + intros Q. apply Y. auto.
Qed.

Theorem C41_flag_means_no_swap : forall w0 ops, initial w0 ->
  (p_has_swap (w_pool (run w0 ops)) = 0 <-> ~ some_swap_ok w0 ops).
Proof.
  intros w0 ops I0.
  assert (Z0 : p_has_swap (w_pool w0) = 0).
  { destruct I0 as (c & key & cr & pa & tt & sl & ti & ad & os & C & _ & _ & H).
    unfold initialize_pool in H. minv. reflexivity. }
  destruct (has_swap_run ops w0 (initial_inv _ I0) (or_introl Z0)) as (A & _). rewrite A. tauto.
Qed.

(** After any successful swap no later swap on the pool is ever entitled again. *)
Theorem C41_at_most_once : forall w a w1 ops a2,
  reachable w -> exec w (OSwap a) = Ok w1 -> ~ bundle_entitled (run w1 ops) a2.
Proof.
  intros w a w1 ops a2 R E (_ & Z0 & _). pose proof (reachable_inv _ R) as I.
  pose proof (reachable_inv _ (reachable_exec _ _ _ R E)) as I1.
  destruct (swap_mono _ _ _ I E) as (_ & _ & _ & HS & _).
  pose proof (pm_has _ _ (fr_pool _ _ (run_frame ops w1 I1)) HS). lia.
Qed.

(** In a transaction: an entitled swap is itself a top-level instruction, and the pool's
    initialisation is an earlier top-level instruction. *)
Theorem C41_same_transaction : forall has_sysvar tx w a i,
  (forall t, In t tx -> wf_tree t) ->
  In (i, sa_view a) (visit_tx has_sysvar [] tx) -> swap_of (w_key w) i -> bundle_entitled w a ->
  exists pre t post, tx = pre ++ t :: post /\ root t = i
    /\ exists t0, In t0 pre /\ init_of (w_key w) (root t0).
Proof.
  intros sv tx w a i W H S (_ & _ & _ & _ & CU & j & J & IN).
  assert (G : forall tx bf, (forall t, In t tx -> wf_tree t) -> In (i, sa_view a) (visit_tx sv bf tx) ->
     exists pre t post, tx = pre ++ t :: post /\ root t = i /\ v_before (sa_view a) = bf ++ map root pre).
  { clear - CU S. induction tx as [|t tx IH]; intros bf W H; [destruct H|]. simpl in H. apply in_app_or in H.
    destruct H as [H|H].
    - exists [], t, tx. split; [reflexivity|]. apply visit_view in H. destruct H as (WI & B & C & _ & D).
      split; [|rewrite app_nil_r; exact B]. rewrite C in CU.
      destruct D as [(-> & _)|(_ & i' & c & l & -> & CL & WC)]; [reflexivity|].
      exfalso. specialize (W _ (or_introl eq_refl)). inversion W as [k l' _ X _]; subst.
      destruct S as (S1 & S2 & _). specialize (X CU c i CL WC S1). rewrite S2 in X. discriminate.
    - destruct (IH (bf ++ [root t]) (fun x X => W x (or_intror X)) H) as (pre & t' & post & E & RT & B).
      exists (t :: pre), t', post. split; [simpl; f_equal; exact E|]. split; [exact RT|].
      rewrite B, <- app_assoc. reflexivity. }
  destruct (G tx [] W H) as (pre & t & post & E & RT & B). exists pre, t, post. split; [exact E|]. split; [exact RT|].
  rewrite B in J. simpl in J. apply in_map_iff in J. destruct J as (t0 & <- & T0). exists t0. auto.
Qed.

(** ** Cases *)

(** A bundle that creates pool 77 and then buys: well formed, and its swap is entitled. *)
Example C41_case : let a := mkSwapArgs 500 None QuoteToBase 0 2000000000 0 1000 1700000000
    (mkView true [init_ix] swap_ix 1 [init_ix]) in
  reachable wA /\ is_ok (exec wA (OSwap a)) = true /\ bundle_entitled wA a
  /\ wf_tree (INode init_ix []) /\ wf_tree (INode swap_ix [])
  /\ In (swap_ix, sa_view a) (visit_tx (fun _ => true) [] [INode init_ix []; INode swap_ix []])
  /\ swap_of (w_key wA) swap_ix.
Proof.
  assert (E : forall i, wf_tree (INode i [])).
  { intros i. constructor; [intros c []|intros _ c j []|intros c []]. }
  cbv zeta. split; [exact (reachA [])|]. split; [vm_compute; reflexivity|]. split.
  { apply eligible_iff. vm_compute. reflexivity. }
  split; [apply E|]. split; [apply E|]. split; [vm_compute; auto|]. vm_compute. auto.
Qed.

(** A router that buys twice on pool 77: both calls are well formed, the first passes the check
    (also as a whole swap, with the limiter in force), the second is refused. *)
Example C42_case :
  let router := mkIx 9 [1; 2; 77; 5] KOther in
  let tx := [INode (mkIx 7 [1; 5] KOther) []; INode router [INode swap_ix []; INode (mkIx 8 [5] KOther) []; INode swap_ix []]] in
  let v1 := mkView true [mkIx 7 [1; 5] KOther] router 2 [] in
  let v2 := mkView true [mkIx 7 [1; 5] KOther] router 2 [mkIx 8 [5] KOther; swap_ix] in
  (forall t, In t tx -> wf_tree t)
  /\ precedes (visit_tx (fun _ => true) [] tx) (swap_ix, v1) (swap_ix, v2)
  /\ swap_of 77 swap_ix /\ w_key wC = 77
  /\ limiter_active cfgC (p_activation (w_pool wC)) (point_of cfgC 1000 1700000100) QuoteToBase
  /\ is_ok (exec wC (swp 500 None QuoteToBase 0 5000000000 1 1700000100 v1)) = true
  /\ exec wC (swp 500 None QuoteToBase 0 5000000000 1 1700000100 v2) = Err EFailToValidateSingleSwapInstruction.
Proof.
  cbv zeta. split.
  { assert (E : forall i, wf_tree (INode i [])).
    { intros i. constructor; [intros c []|intros _ c j []|intros c []]. }
    intros t [<-|[<-|[]]]; [apply E|]. constructor.
    - intros c [<-|[<-|[<-|[]]]]; simpl; intros x; simpl; tauto.
    - discriminate.
    - intros c [<-|[<-|[<-|[]]]]; apply E. }
  split; [simpl; auto 10|]. split; [repeat split|]. split; [reflexivity|]. split.
  { unfold limiter_active. vm_compute. repeat split; try congruence. intros (K & _). discriminate. }
  split; vm_compute; reflexivity.
Qed.

Print Assumptions C41_min_fee_only_in_bundle.
Print Assumptions C41_flag_means_no_swap.
Print Assumptions C41_at_most_once.
Print Assumptions C41_same_transaction.
Print Assumptions C42_one_checked_swap.
Print Assumptions C42_nothing_before.
Print Assumptions C42_limited_once_per_transaction.
Print Assumptions C42_unlimited_nested_refuted.
