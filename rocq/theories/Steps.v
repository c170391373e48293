(** * Walking along a curve of segments

    Both directions and all modes of a trade walk along a list of segments. A position is the price
    for purchases and minus the price for sales, so that every walk goes upwards. On each segment there
    are two increasing rational potentials: what it costs and what it yields to get from one
    position to another is the difference of the potentials. *)
From Coq Require Import ZArith QArith Qround List Bool Lia ZifyBool Lqa.
Import ListNotations.
Local Open Scope Z_scope.

Record seg := mkSeg { g_end : Z; g_cost : Z -> Q; g_gain : Z -> Q }.

Fixpoint segs_ok (lo : Z) (l : list seg) : Prop :=
  match l with
  | [] => True
  | s :: rest =>
      (forall a b, lo <= a -> a < b -> b <= g_end s ->
         (g_cost s a < g_cost s b /\ g_gain s a < g_gain s b)%Q)
      /\ segs_ok (g_end s) rest
  end.

(** Exact input: [takes stop segs pos x pos' left out] spends up to [x] from [pos], goes to [pos'],
    never beyond [stop], keeps [left] and yields [out]. *)
Inductive takes (stop : Z) : list seg -> Z -> Z -> Z -> Z -> Z -> Prop :=
| tk_nil pos x : takes stop [] pos x pos x 0
| tk_skip s rest pos x pos' left out :
    Z.min stop (g_end s) <= pos -> takes stop rest pos x pos' left out ->
    takes stop (s :: rest) pos x pos' left out
| tk_part s rest pos x pos' out :
    let e := Z.min stop (g_end s) in
    pos <= pos' -> pos' < e ->
    (g_cost s pos' - g_cost s pos <= inject_Z x)%Q ->
    (inject_Z x < g_cost s (pos' + 1) - g_cost s pos)%Q ->
    out = Qfloor (g_gain s pos' - g_gain s pos) ->
    takes stop (s :: rest) pos x pos' 0 out
| tk_full s rest pos x pos' left out :
    let e := Z.min stop (g_end s) in
    pos < e -> (g_cost s e - g_cost s pos <= inject_Z x)%Q ->
    takes stop rest e (x - Qceiling (g_cost s e - g_cost s pos)) pos' left out ->
    takes stop (s :: rest) pos x pos' left (Qfloor (g_gain s e - g_gain s pos) + out).

(** Exact output: [gives segs pos y pos' left cost] asks for [y], goes from [pos] to [pos'], charges
    [cost]; [left] of the demand is not met. *)
Inductive gives : list seg -> Z -> Z -> Z -> Z -> Z -> Prop :=
| gv_nil pos y : gives [] pos y pos y 0
| gv_skip s rest pos y pos' left cost :
    g_end s <= pos -> gives rest pos y pos' left cost -> gives (s :: rest) pos y pos' left cost
| gv_part s rest pos y pos' cost :
    pos < g_end s -> pos <= pos' <= g_end s ->
    (inject_Z y <= g_gain s pos' - g_gain s pos)%Q ->
    pos' = pos \/ (g_gain s (pos' - 1) - g_gain s pos < inject_Z y)%Q ->
    cost = Qceiling (g_cost s pos' - g_cost s pos) ->
    gives (s :: rest) pos y pos' 0 cost
| gv_full s rest pos y pos' left cost :
    pos < g_end s ->
    Qfloor (g_gain s (g_end s) - g_gain s pos) <= y ->
    gives rest (g_end s) (y - Qfloor (g_gain s (g_end s) - g_gain s pos)) pos' left cost ->
    gives (s :: rest) pos y pos' left
          (Qceiling (g_cost s (g_end s) - g_cost s pos) + cost).

(** ** Floors and ceilings *)
Lemma floor_ge q z : (inject_Z z <= q)%Q -> z <= Qfloor q.
Proof. intros H. apply Qfloor_resp_le in H. rewrite Qfloor_Z in H. exact H. Qed.
Lemma ceil_le q z : (q <= inject_Z z)%Q -> Qceiling q <= z.
Proof. intros H. apply Qceiling_resp_le in H. rewrite Qceiling_Z in H. exact H. Qed.
Lemma floor_le q : (inject_Z (Qfloor q) <= q)%Q.
Proof. apply Qfloor_le. Qed.
Lemma ceil_ge q : (q <= inject_Z (Qceiling q))%Q.
Proof. apply Qle_ceiling. Qed.
Lemma floor_add a b q : (a + b <= q)%Q -> Qfloor a + Qfloor b <= Qfloor q.
Proof.
  intros H. apply floor_ge. rewrite inject_Z_plus. pose proof (floor_le a). pose proof (floor_le b). lra.
Qed.
Lemma inj_le a b : a <= b -> (inject_Z a <= inject_Z b)%Q.
Proof. rewrite <- Zle_Qle. auto. Qed.
Lemma inj_lt a b : a < b -> (inject_Z a < inject_Z b)%Q.
Proof. rewrite <- Zlt_Qlt. auto. Qed.
Lemma inj_le_inv a b : (inject_Z a <= inject_Z b)%Q -> a <= b.
Proof. rewrite <- Zle_Qle. auto. Qed.
Lemma inj_lt_inv a b : (inject_Z a < inject_Z b)%Q -> a < b.
Proof. rewrite <- Zlt_Qlt. auto. Qed.

(** Non-strict growth of the potentials. *)
Lemma seg_mono lo s rest a b :
  segs_ok lo (s :: rest) -> lo <= a -> a <= b -> b <= g_end s ->
  (g_cost s a <= g_cost s b /\ g_gain s a <= g_gain s b)%Q.
Proof.
  intros (H & _) ? ? ?. destruct (Z.eq_dec a b) as [->|N]; [split; lra|].
  destruct (H a b); try lia. split; lra.
Qed.

(** ** Exact input *)
Lemma takes_stopped stop l : forall pos x pos' left out,
  takes stop l pos x pos' left out -> stop <= pos -> pos' = pos /\ left = x /\ out = 0.
Proof.
  intros pos x pos' left out H. induction H; intros S; auto; subst e; lia.
Qed.

Lemma takes_basic stop l : forall lo pos x pos' left out,
  takes stop l pos x pos' left out -> segs_ok lo l -> lo <= pos -> 0 <= x ->
  pos <= pos' /\ 0 <= left <= x /\ 0 <= out.
Proof.
  intros lo pos x pos' left out H. revert lo. induction H; intros lo OK L X; [lia| | |].
  - destruct OK as (_ & OK). destruct (Z_le_gt_dec stop pos) as [S|S].
    + apply takes_stopped in H0; auto. destruct H0 as (-> & -> & ->). lia.
    + apply (IHtakes (g_end s)); auto; lia.
  - destruct (seg_mono _ _ _ pos pos' OK) as (_ & G); try (subst e; lia).
    assert (0 <= out); [subst out|lia]. apply floor_ge. change (inject_Z 0) with 0%Q. lra.
  - destruct (seg_mono _ _ _ pos e OK) as (C & G); try (subst e; lia).
    assert (K : Qceiling (g_cost s e - g_cost s pos) <= x) by (apply ceil_le; auto).
    assert (K0 : 0 <= Qceiling (g_cost s e - g_cost s pos)).
    { apply inj_le_inv. eapply Qle_trans; [|apply ceil_ge]. change (inject_Z 0) with 0%Q. lra. }
    assert (F0 : 0 <= Qfloor (g_gain s e - g_gain s pos)) by (apply floor_ge; change (inject_Z 0) with 0%Q; lra).
    destruct (Z_le_gt_dec stop e) as [S|S].
    + apply takes_stopped in H1; auto. destruct H1 as (-> & -> & ->). lia.
    + assert (EE : e = g_end s) by (subst e; lia). destruct OK as (_ & OK). rewrite <- EE in OK.
      apply IHtakes in OK; lia.
Qed.

Lemma takes_inv stop s rest pos x pos' left out :
  takes stop (s :: rest) pos x pos' left out ->
  let e := Z.min stop (g_end s) in
  (e <= pos /\ takes stop rest pos x pos' left out)
  \/ (pos <= pos' < e /\ (g_cost s pos' - g_cost s pos <= inject_Z x)%Q
      /\ (inject_Z x < g_cost s (pos' + 1) - g_cost s pos)%Q
      /\ left = 0 /\ out = Qfloor (g_gain s pos' - g_gain s pos))
  \/ (pos < e /\ (g_cost s e - g_cost s pos <= inject_Z x)%Q
      /\ Qceiling (g_cost s e - g_cost s pos) <= x
      /\ exists o, takes stop rest e (x - Qceiling (g_cost s e - g_cost s pos)) pos' left o
                   /\ out = Qfloor (g_gain s e - g_gain s pos) + o).
Proof.
  intros T. inversion T; subst; cbv zeta; [left|right; left|right; right]; auto.
  fold e. split; [auto|]. split; [auto|]. split; [apply ceil_le; auto|]. eauto.
Qed.

Lemma gives_inv s rest pos y pos' left cost :
  gives (s :: rest) pos y pos' left cost ->
  (g_end s <= pos /\ gives rest pos y pos' left cost)
  \/ (pos < g_end s /\ pos <= pos' <= g_end s /\ (inject_Z y <= g_gain s pos' - g_gain s pos)%Q
      /\ (pos' = pos \/ (g_gain s (pos' - 1) - g_gain s pos < inject_Z y)%Q)
      /\ left = 0 /\ cost = Qceiling (g_cost s pos' - g_cost s pos))
  \/ (pos < g_end s /\ Qfloor (g_gain s (g_end s) - g_gain s pos) <= y
      /\ exists k, gives rest (g_end s) (y - Qfloor (g_gain s (g_end s) - g_gain s pos)) pos' left k
                   /\ cost = Qceiling (g_cost s (g_end s) - g_cost s pos) + k).
Proof.
  intros T. inversion T; subst; [left|right; left|right; right]; eauto 10.
Qed.

Ltac fold_end s stop e := set (e := Z.min stop (g_end s)) in *; assert (e <= stop /\ e <= g_end s) by (subst e; lia).

Lemma takes_all_behind stop l : forall pos x, stop <= pos -> takes stop l pos x pos x 0.
Proof. induction l; intros; [constructor|]. apply tk_skip; [lia|auto]. Qed.

(** Spending nothing. *)
Lemma takes_zero stop l : forall lo pos, segs_ok lo l -> lo <= pos -> takes stop l pos 0 pos 0 0.
Proof.
  induction l as [|s rest IH]; intros lo pos OK L; [constructor|].
  destruct (Z_le_gt_dec stop pos); [apply takes_all_behind; lia|].
  destruct (Z_le_gt_dec (g_end s) pos).
  - apply tk_skip; [lia|]. apply (IH (g_end s)); [apply OK|lia].
  - apply tk_part; try lia.
    + change (inject_Z 0) with 0%Q. lra.
    + destruct OK as (H & _). destruct (H pos (pos + 1)); try lia. change (inject_Z 0) with 0%Q. lra.
    + symmetry. rewrite (Qfloor_comp _ 0%Q); [reflexivity|]. ring.
Qed.

(** Spending more yields at least as much and goes at least as far. *)
Lemma takes_mono stop l : forall lo pos x x2 pos1 left1 out1 pos2 left2 out2,
  segs_ok lo l -> lo <= pos -> 0 <= x -> x <= x2 ->
  takes stop l pos x pos1 left1 out1 -> takes stop l pos x2 pos2 left2 out2 ->
  pos1 <= pos2 /\ out1 <= out2 /\ left1 <= left2.
Proof.
  induction l as [|s rest IH]; intros lo pos x x2 pos1 left1 out1 pos2 left2 out2 OK L X X2 T1 T2.
  - inversion T1; subst. inversion T2; subst. lia.
  - assert (ST : forall q y, stop <= q -> forall p l1 o, takes stop rest q y p l1 o -> p = q /\ l1 = y /\ o = 0)
      by (intros; eapply takes_stopped; eauto).
    apply takes_inv in T1. apply takes_inv in T2. cbv zeta in T1, T2. fold_end s stop e.
    assert (EE : ~ stop <= e -> e = g_end s) by (subst e; lia).
    apply inj_le in X2 as XQ.
    destruct T1 as [(A & T1)|[(A & B1 & B2 & -> & ->)|(A & B & K & o1 & T1 & ->)]];
    destruct T2 as [(A' & T2)|[(A' & B1' & B2' & -> & ->)|(A' & B' & K' & o2 & T2 & ->)]]; try lia.
    + destruct OK as (_ & OK). destruct (Z_le_gt_dec stop pos) as [S|S].
      * destruct (ST _ _ S _ _ _ T1) as (-> & -> & ->). destruct (ST _ _ S _ _ _ T2) as (-> & -> & ->). lia.
      * eapply (IH (g_end s)); eauto. subst e; lia.
    + (* both end in this segment *)
      assert (E : pos1 <= pos2).
      { destruct (Z_le_gt_dec pos1 pos2); auto.
        destruct (seg_mono _ _ _ (pos2 + 1) pos1 OK) as (C & _); try lia. lra. }
      destruct (seg_mono _ _ _ pos1 pos2 OK) as (_ & G); try lia.
      split; [auto|]. split; [apply Qfloor_resp_le; lra|lia].
    + (* the smaller amount ends here *)
      destruct (seg_mono _ _ _ pos1 e OK) as (_ & G); try lia.
      assert (F : Qfloor (g_gain s pos1 - g_gain s pos) <= Qfloor (g_gain s e - g_gain s pos))
        by (apply Qfloor_resp_le; lra).
      destruct (Z_le_gt_dec stop e) as [S|S].
      * destruct (ST _ _ S _ _ _ T2) as (-> & -> & ->). lia.
      * destruct OK as (_ & OK). rewrite <- EE in OK by lia.
        eapply takes_basic in T2; eauto; lia.
    + (* the larger amount ends here: impossible *)
      destruct (seg_mono _ _ _ (pos2 + 1) e OK) as (C & _); try lia. lra.
    + destruct (Z_le_gt_dec stop e) as [S|S].
      * destruct (ST _ _ S _ _ _ T1) as (-> & -> & ->). destruct (ST _ _ S _ _ _ T2) as (-> & -> & ->). lia.
      * destruct OK as (_ & OK). rewrite <- EE in OK by lia.
        assert (R : pos1 <= pos2 /\ o1 <= o2 /\ left1 <= left2); [|lia].
        eapply (IH e); [exact OK| | | |exact T1|exact T2]; lia.
Qed.

(** Spending [x] and then [y] from where the first walk ended yields at most what spending [x + y]
    at once does, and goes no further. *)
Lemma takes_split stop l : forall lo pos x y pos1 left1 out1 pos2 left2 out2 pos3 left3 out3,
  segs_ok lo l -> lo <= pos -> 0 <= x -> 0 <= y ->
  takes stop l pos x pos1 left1 out1 -> takes stop l pos1 y pos2 left2 out2 ->
  takes stop l pos (x + y) pos3 left3 out3 ->
  pos2 <= pos3 /\ out1 + out2 <= out3 /\ left2 <= left3.
Proof.
  induction l as [|s rest IH]; intros lo pos x y pos1 left1 out1 pos2 left2 out2 pos3 left3 out3 OK L X Y T1 T2 T3.
  - inversion T1; subst. inversion T2; subst. inversion T3; subst. lia.
  - assert (ST : forall q y, stop <= q -> forall p l1 o, takes stop rest q y p l1 o -> p = q /\ l1 = y /\ o = 0)
      by (intros; eapply takes_stopped; eauto).
    pose proof (takes_basic _ _ _ _ _ _ _ _ T1 OK L X) as (P1 & _ & O1).
    apply takes_inv in T1. apply takes_inv in T2. apply takes_inv in T3. cbv zeta in T1, T2, T3.
    fold_end s stop e. assert (EE : ~ stop <= e -> e = g_end s) by (subst e; lia).
    destruct T1 as [(A & T1)|[(A & B1 & B2 & _ & ->)|(A & B & K & o1 & T1 & ->)]].
    + (* this segment lies behind *)
      destruct T2 as [(A' & T2)|[(A' & _)|(A' & _)]]; [|lia|lia].
      destruct T3 as [(A'' & T3)|[(A'' & _)|(A'' & _)]]; [|lia|lia].
      destruct (Z_le_gt_dec stop pos) as [S|S].
      * destruct (ST _ _ S _ _ _ T1) as (-> & _ & ->). destruct (ST _ _ S _ _ _ T2) as (-> & -> & ->).
        destruct (ST _ _ S _ _ _ T3) as (-> & -> & ->). lia.
      * destruct OK as (_ & OK). eapply (IH (g_end s)); [exact OK| | | |exact T1|exact T2|exact T3]; subst e; lia.
    + (* the first walk ends in this segment *)
      destruct (seg_mono _ _ _ pos1 e OK) as (C1 & G1); try lia.
      destruct T2 as [(A' & T2)|[(A' & B1' & B2' & -> & ->)|(A' & B' & K' & o2 & T2 & ->)]]; [lia| |].
      * (* so does the second *)
        destruct T3 as [(A'' & T3)|[(A'' & B1'' & B2'' & -> & ->)|(A'' & B'' & K'' & o3 & T3 & ->)]]; [lia| |].
        -- rewrite inject_Z_plus in B2''.
           assert (E : pos2 <= pos3).
           { destruct (Z_le_gt_dec pos2 pos3); auto.
             destruct (seg_mono _ _ _ (pos3 + 1) pos2 OK) as (C & _); try lia. lra. }
           destruct (seg_mono _ _ _ pos2 pos3 OK) as (_ & G); try lia.
           split; [auto|]. split; [apply floor_add; lra|lia].
        -- destruct (seg_mono _ _ _ pos2 e OK) as (_ & G2); try lia.
           assert (F : Qfloor (g_gain s pos1 - g_gain s pos) + Qfloor (g_gain s pos2 - g_gain s pos1)
                       <= Qfloor (g_gain s e - g_gain s pos)) by (apply floor_add; lra).
           destruct (Z_le_gt_dec stop e) as [S|S].
           ++ destruct (ST _ _ S _ _ _ T3) as (-> & -> & ->). lia.
           ++ destruct OK as (_ & OK). rewrite <- EE in OK by lia. eapply takes_basic in T3; eauto; lia.
      * (* the second walk goes on *)
        destruct T3 as [(A'' & T3)|[(A'' & B1'' & B2'' & -> & ->)|(A'' & B'' & K'' & o3 & T3 & ->)]]; [lia| |].
        -- destruct (seg_mono _ _ _ (pos3 + 1) e OK) as (C & _); try lia. rewrite inject_Z_plus in *. lra.
        -- assert (F : Qfloor (g_gain s pos1 - g_gain s pos) + Qfloor (g_gain s e - g_gain s pos1)
                       <= Qfloor (g_gain s e - g_gain s pos)) by (apply floor_add; lra).
           assert (KK : Qceiling (g_cost s e - g_cost s pos) <= x + Qceiling (g_cost s e - g_cost s pos1)).
           { apply ceil_le. rewrite inject_Z_plus. pose proof (ceil_ge (g_cost s e - g_cost s pos1)). lra. }
           destruct (Z_le_gt_dec stop e) as [S|S].
           ++ destruct (ST _ _ S _ _ _ T2) as (-> & -> & ->). destruct (ST _ _ S _ _ _ T3) as (-> & -> & ->). lia.
           ++ destruct OK as (_ & OK). rewrite <- EE in OK by lia.
              assert (R : pos2 <= pos3 /\ o2 <= o3 /\ left2 <= left3); [|lia].
              eapply takes_mono; [exact OK| | | |exact T2|exact T3]; lia.
    + (* the first walk goes on *)
      destruct (Z_le_gt_dec stop e) as [S|S].
      * destruct (ST _ _ S _ _ _ T1) as (-> & Z0 & ->).
        destruct T2 as [(A' & T2)|[(A' & _)|(A' & _)]]; [|lia|lia].
        destruct (ST _ _ S _ _ _ T2) as (-> & -> & ->).
        destruct T3 as [(A'' & T3)|[(A'' & B1'' & B2'' & -> & ->)|(A'' & B'' & K'' & o3 & T3 & ->)]]; [lia| |].
        -- destruct (seg_mono _ _ _ (pos3 + 1) e OK) as (C & _); try lia.
           assert (Q := inj_le x (x + y) ltac:(lia)). lra.
        -- destruct (ST _ _ S _ _ _ T3) as (-> & -> & ->). lia.
      * pose proof OK as (_ & OK'). rewrite <- EE in OK' by lia.
        pose proof (takes_basic _ _ _ _ _ _ _ _ T1 OK' ltac:(lia) ltac:(lia)) as (P1' & _).
        destruct T2 as [(A' & T2)|[(A' & _)|(A' & _)]]; [|lia|lia].
        destruct T3 as [(A'' & T3)|[(A'' & B1'' & B2'' & -> & ->)|(A'' & B'' & K'' & o3 & T3 & ->)]]; [lia| |].
        -- destruct (seg_mono _ _ _ (pos3 + 1) e OK) as (C & _); try lia.
           assert (Q := inj_le x (x + y) ltac:(lia)). lra.
        -- replace (x + y - Qceiling (g_cost s e - g_cost s pos)) with (x - Qceiling (g_cost s e - g_cost s pos) + y) in T3 by lia.
           assert (R : pos2 <= pos3 /\ o1 + out2 <= o3 /\ left2 <= left3); [|lia].
           eapply (IH e); [exact OK'| | | |exact T1|exact T2|exact T3]; lia.
Qed.

(** ** Exact output against exact input *)
Lemma gives_basic l : forall lo pos y pos' left cost,
  gives l pos y pos' left cost -> segs_ok lo l -> lo <= pos -> 0 <= y ->
  pos <= pos' /\ 0 <= left <= y /\ 0 <= cost.
Proof.
  intros lo pos y pos' left cost H. revert lo. induction H; intros lo OK L X; [lia| | |].
  - destruct OK as (_ & OK). apply (IHgives (g_end s)); auto; lia.
  - destruct (seg_mono _ _ _ pos pos' OK) as (C & _); try lia.
    assert (0 <= cost); [subst cost|lia].
    apply inj_le_inv. eapply Qle_trans; [|apply ceil_ge]. change (inject_Z 0) with 0%Q. lra.
  - destruct (seg_mono _ _ _ pos (g_end s) OK) as (C & G); try lia.
    assert (K0 : 0 <= Qceiling (g_cost s (g_end s) - g_cost s pos)).
    { apply inj_le_inv. eapply Qle_trans; [|apply ceil_ge]. change (inject_Z 0) with 0%Q. lra. }
    assert (F0 : 0 <= Qfloor (g_gain s (g_end s) - g_gain s pos))
      by (apply floor_ge; change (inject_Z 0) with 0%Q; lra).
    destruct OK as (_ & OK). apply IHgives in OK; lia.
Qed.

(** What an exact-output walk charges is enough to obtain the amount by an exact-input walk. *)
Lemma gives_takes stop l : forall lo pos y pos1 cost x pos2 left2 out2,
  segs_ok lo l -> lo <= pos -> 0 <= y -> cost <= x ->
  gives l pos y pos1 0 cost -> pos1 <= stop -> takes stop l pos x pos2 left2 out2 ->
  pos1 <= pos2 /\ y <= out2.
Proof.
  induction l as [|s rest IH]; intros lo pos y pos1 cost x pos2 left2 out2 OK L Y X G S T.
  - inversion G; subst. inversion T; subst. lia.
  - pose proof (gives_basic _ _ _ _ _ _ _ G OK L Y) as (P1 & _ & C0).
    pose proof (inj_le _ _ X) as XQ.
    apply gives_inv in G. apply takes_inv in T. cbv zeta in T. fold_end s stop e.
    destruct G as [(A & G)|[(A & B1 & B2 & _ & _ & ->)|(A & B & k & G & ->)]].
    + destruct T as [(A' & T)|[(A' & _)|(A' & _)]]; [|lia|lia].
      destruct OK as (_ & OK). eapply (IH (g_end s)); [exact OK| | | |exact G|exact S|exact T]; lia.
    + assert (PE : pos1 <= e) by (subst e; lia).
      destruct T as [(A' & T)|[(A' & B1' & B2' & -> & ->)|(A' & B' & K' & o2 & T & ->)]].
      * assert (pos1 = pos) by lia. subst pos1.
        assert (SE : stop <= pos) by (subst e; lia).
        destruct (takes_stopped _ _ _ _ _ _ _ T SE) as (-> & -> & ->).
        split; [lia|]. apply inj_le_inv. change (inject_Z 0) with 0%Q. lra.
      * assert (E : pos1 <= pos2).
        { destruct (Z_le_gt_dec pos1 pos2); auto.
          destruct (seg_mono _ _ _ (pos2 + 1) pos1 OK) as (C & _); try lia.
          pose proof (ceil_ge (g_cost s pos1 - g_cost s pos)). lra. }
        destruct (seg_mono _ _ _ pos1 pos2 OK) as (_ & G2); try lia.
        split; [auto|]. apply floor_ge. lra.
      * destruct (seg_mono _ _ _ pos1 e OK) as (_ & G2); try lia.
        assert (F : y <= Qfloor (g_gain s e - g_gain s pos)) by (apply floor_ge; lra).
        destruct (Z_le_gt_dec stop e) as [SE|SE].
        -- destruct (takes_stopped _ _ _ _ _ _ _ T SE) as (-> & -> & ->). lia.
        -- destruct OK as (_ & OK). replace (g_end s) with e in OK by (subst e; lia).
           eapply takes_basic in T; eauto; lia.
    + pose proof (gives_basic _ _ _ _ _ _ _ G (proj2 OK) ltac:(lia) ltac:(lia)) as (P2 & _ & C2).
      assert (EE : e = g_end s) by (subst e; lia). rewrite EE in *.
      destruct T as [(A' & T)|[(A' & B1' & B2' & -> & ->)|(A' & B' & K' & o2 & T & ->)]]; [lia| |].
      * destruct (seg_mono _ _ _ (pos2 + 1) (g_end s) OK) as (C & _); try lia.
        pose proof (ceil_ge (g_cost s (g_end s) - g_cost s pos)).
        rewrite inject_Z_plus in *. apply inj_le in C2. change (inject_Z 0) with 0%Q in C2. lra.
      * destruct OK as (_ & OK).
        assert (R : pos1 <= pos2 /\ y - Qfloor (g_gain s (g_end s) - g_gain s pos) <= o2); [|lia].
        eapply (IH (g_end s)); [exact OK| | | |exact G|exact S|exact T]; lia.
Qed.

(** Asking for less than what an exact-input walk yields costs at most its input. *)
Lemma takes_gives stop l : forall lo pos y pos1 left1 cost x pos2 left2 out2,
  segs_ok lo l -> lo <= pos -> 0 <= y -> 0 <= x ->
  takes stop l pos x pos2 left2 out2 -> y < out2 -> gives l pos y pos1 left1 cost ->
  pos1 <= pos2 /\ left1 = 0 /\ cost <= x - left2.
Proof.
  induction l as [|s rest IH]; intros lo pos y pos1 left1 cost x pos2 left2 out2 OK L Y X T YO G.
  - inversion T; subst. lia.
  - apply gives_inv in G. apply takes_inv in T. cbv zeta in T. fold_end s stop e.
    destruct T as [(A & T)|[(A & B1 & B2 & -> & ->)|(A & B & K & o & T & ->)]].
    + destruct (Z_le_gt_dec stop pos) as [S|S].
      { destruct (takes_stopped _ _ _ _ _ _ _ T S) as (-> & -> & ->). lia. }
      assert (A0 : g_end s <= pos) by (subst e; lia).
      destruct G as [(_ & G)|[(A' & _)|(A' & _)]]; [|lia|lia].
      destruct OK as (_ & OK). eapply (IH (g_end s)); [exact OK| | | |exact T|exact YO|exact G]; lia.
    + (* the exact-input walk ends in this segment *)
      assert (YQ : (inject_Z y < g_gain s pos2 - g_gain s pos)%Q).
      { pose proof (floor_le (g_gain s pos2 - g_gain s pos)). apply inj_lt in YO. lra. }
      destruct (seg_mono _ _ _ pos2 (g_end s) OK) as (C & GG); try lia.
      destruct G as [(A' & _)|[(A' & B1' & B2' & B3' & -> & ->)|(A' & B' & k & G & ->)]]; [lia| |].
      * assert (P : pos1 <= pos2).
        { destruct B3' as [->|B3']; [lia|]. destruct (Z_le_gt_dec pos1 pos2); auto.
          destruct (seg_mono _ _ _ pos2 (pos1 - 1) OK) as (_ & G2); try lia. lra. }
        destruct (seg_mono _ _ _ pos1 pos2 OK) as (C2 & _); try lia.
        split; [auto|]. split; [auto|]. rewrite Z.sub_0_r. apply ceil_le. lra.
      * assert (Qfloor (g_gain s pos2 - g_gain s pos) <= Qfloor (g_gain s (g_end s) - g_gain s pos))
          by (apply Qfloor_resp_le; lra). lia.
    + destruct (seg_mono _ _ _ e (g_end s) OK) as (C & GG); try lia.
      assert (FG : Qfloor (g_gain s e - g_gain s pos) <= Qfloor (g_gain s (g_end s) - g_gain s pos))
        by (apply Qfloor_resp_le; lra).
      assert (OS : stop <= e -> o = 0 /\ pos2 = e /\ left2 = x - Qceiling (g_cost s e - g_cost s pos)).
      { intros S. destruct (takes_stopped _ _ _ _ _ _ _ T S) as (-> & -> & ->). auto. }
      assert (EE : ~ stop <= e -> e = g_end s) by (subst e; lia).
      assert (TB : ~ stop <= e -> e <= pos2 /\ left2 <= x - Qceiling (g_cost s e - g_cost s pos)).
      { intros S. destruct OK as (_ & OK). rewrite <- EE in OK by lia. eapply takes_basic in T; eauto; lia. }
      destruct G as [(A' & _)|[(A' & B1' & B2' & B3' & -> & ->)|(A' & B' & k & G & ->)]]; [lia| |].
      * assert (P : pos1 <= e).
        { destruct (Z_le_gt_dec stop e) as [S|S]; [|rewrite EE by lia; lia].
          destruct (OS S) as (-> & _).
          assert (YQ : (inject_Z y < g_gain s e - g_gain s pos)%Q).
          { pose proof (floor_le (g_gain s e - g_gain s pos)). rewrite Z.add_0_r in YO. apply inj_lt in YO. lra. }
          destruct B3' as [->|B3']; [lia|]. destruct (Z_le_gt_dec pos1 e); auto.
          destruct (seg_mono _ _ _ e (pos1 - 1) OK) as (_ & G2); try lia. lra. }
        destruct (seg_mono _ _ _ pos1 e OK) as (C2 & _); try lia.
        assert (KC : Qceiling (g_cost s pos1 - g_cost s pos) <= Qceiling (g_cost s e - g_cost s pos))
          by (apply Qceiling_resp_le; lra).
        destruct (Z_le_gt_dec stop e) as [S|S]; [destruct (OS S) as (_ & -> & ->)|destruct TB; [lia|]]; lia.
      * assert (S : ~ stop <= e) by (intros S; destruct (OS S) as (-> & _); lia).
        rewrite (EE S) in *. destruct OK as (_ & OK).
        assert (R : pos1 <= pos2 /\ left1 = 0
                    /\ k <= x - Qceiling (g_cost s (g_end s) - g_cost s pos) - left2); [|lia].
        eapply (IH (g_end s)); [exact OK| | | |exact T| |exact G]; lia.
Qed.

(** Every exact-input walk exists. *)
Lemma last_within (f : Z -> Q) v n : forall lo : Z, (f lo <= v)%Q -> (v < f (lo + Z.of_nat n)%Z)%Q ->
  exists p : Z, lo <= p < lo + Z.of_nat n /\ (f p <= v)%Q /\ (v < f (p + 1)%Z)%Q.
Proof.
  induction n; intros lo A B.
  - replace (lo + Z.of_nat 0) with lo in B by lia. lra.
  - destruct (Qlt_le_dec v (f (lo + 1)%Z)) as [C|C].
    + exists lo. split; [lia|auto].
    + replace (lo + Z.of_nat (S n)) with (lo + 1 + Z.of_nat n) in * by lia.
      destruct (IHn (lo + 1) C B) as (p & P & Q). exists p. split; [lia|exact Q].
Qed.

Lemma takes_total stop l : forall lo pos x, segs_ok lo l -> lo <= pos -> 0 <= x ->
  exists pos' left out, takes stop l pos x pos' left out.
Proof.
  induction l as [|s rest IH]; intros lo pos x OK L X; [eexists _, _, _; apply tk_nil|].
  destruct (Z_le_gt_dec (Z.min stop (g_end s)) pos) as [A|A].
  - destruct (Z_le_gt_dec (g_end s) pos) as [B|B].
    + destruct OK as (_ & OK). destruct (IH (g_end s) pos x OK B X) as (p & l & o & T).
      exists p, l, o. apply tk_skip; assumption.
    + assert (S : stop <= pos) by lia. exists pos, x, 0. apply tk_skip; [exact A|].
      clear - S. induction rest; [apply tk_nil|apply tk_skip; [lia|assumption]].
  - set (e := Z.min stop (g_end s)) in *.
    destruct (Qlt_le_dec (inject_Z x) (g_cost s e - g_cost s pos)) as [B|B].
    + destruct (last_within (fun p => g_cost s p - g_cost s pos)%Q (inject_Z x) (Z.to_nat (e - pos)) pos)
        as (p & P & Q1 & Q2).
      * apply inj_le in X. change (inject_Z 0) with 0%Q in X. lra.
      * replace (pos + Z.of_nat (Z.to_nat (e - pos))) with e by lia. exact B.
      * eexists p, 0, _. eapply tk_part; [lia|fold e; lia|exact Q1|exact Q2|reflexivity].
    + destruct (Z_le_gt_dec stop e) as [S|S].
      * exists e, (x - Qceiling (g_cost s e - g_cost s pos)), (Qfloor (g_gain s e - g_gain s pos) + 0).
        apply tk_full; [fold e; lia|exact B|]. fold e. revert S. generalize (x - Qceiling (g_cost s e - g_cost s pos)). clear.
        intros z S. induction rest; [apply tk_nil|apply tk_skip; [lia|assumption]].
      * destruct OK as (_ & OK). replace (g_end s) with e in OK by (subst e; lia).
        apply ceil_le in B as B2.
        destruct (IH e e (x - Qceiling (g_cost s e - g_cost s pos)) OK ltac:(lia) ltac:(lia)) as (p & l & o & T).
        exists p, l, (Qfloor (g_gain s e - g_gain s pos) + o). apply tk_full; [fold e; lia|exact B|exact T].
Qed.
