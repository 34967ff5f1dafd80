(** QBondPriceProps.v -- C147, C148: the value of a bond. *)
From Coq Require Import ZArith List Permutation Reals Lra Lia Bool Ascii.
From Flocq Require Import Core IEEE754.BinarySingleNaN.
From Verif Require Import Base CivilSpec FloatModel FloatFacts KrxModel QDateModel QCalModel QPeriodModel QPeriodSpec QYearModel QYearSpec QSchedModel QInterpModel QInterpSpec QDivModel QCurveModel QCurveSpec QCurveFacts QCurveExp QFloatErr QLinProps QCurveProps QCurveFwdProps QBondModel QBondSpec QBondProofs.
Import ListNotations.
Open Scope Z_scope.

Lemma perm_filter : forall {A} (f : A -> bool) l l', Permutation l l' -> Permutation (filter f l) (filter f l').
Proof.
  intros A f l l' H. induction H; cbn.
  - constructor.
  - destruct (f x); [constructor|]; assumption.
  - destruct (f x), (f y); try apply Permutation_refl. constructor.
  - eapply Permutation_trans; eassumption.
Qed.
Lemma perm_forall : forall {A} (P : A -> Prop) l l', Permutation l l' -> Forall P l -> Forall P l'.
Proof. intros A P l l' H F. rewrite List.Forall_forall in *. intros x I. apply F. apply (Permutation_in x (Permutation_sym H)). exact I. Qed.

Open Scope R_scope.
(** ** C147: the discounted cash flows *)
Lemma zero_fn : fn (gof_Z 0) 0.
Proof. split; reflexivity. Qed.
Lemma discounted_value : forall order eval disc pricing m, iterates order -> Forall (good_flow eval disc pricing) m -> (Z.of_nat (length (future pricing m)) <= 1048576)%Z ->
  let n := INR (length (future pricing m)) in let F := factor_on eval disc in
  exists s v, discounted (order m) eval disc pricing (gof_Z 0) = Ret (ROk s) /\ fn s v /\
    Rabs (v - present_value F (future pricing m)) <= (2 * n * e24 + 2 * e24) * present_size F (future pricing m) + n * (2 * tiny).
Proof.
  intros order eval disc pricing m IT G N. cbn zeta. pose proof (IT m) as P.
  assert (PF : Permutation (future pricing (order m)) (future pricing m)) by (apply perm_filter; exact P).
  pose proof (Permutation_length PF) as PL.
  destruct (discounted_err eval disc pricing (order m) (gof_Z 0) 0 0 0 0 (perm_forall _ _ _ (Permutation_sym P) G) zero_fn) as (s & v & E & Fs & Q).
  - rewrite Rabs_R0. lra.
  - simpl. lra.
  - rewrite Nat.add_0_l, PL. exact N.
  - rewrite Rminus_0_r, Rabs_R0. simpl. lra.
  - cbn zeta in Q. rewrite Nat.add_0_l, PL in Q. unfold present_value, present_size in *. rewrite !(sum_perm _ _ _ PF), !Rplus_0_l in Q. exists s, v. auto.
Qed.
Lemma size_range : forall eval disc pricing m, Forall (good_flow eval disc pricing) m -> (Z.of_nat (length (future pricing m)) <= 1048576)%Z ->
  let F := factor_on eval disc in 0 <= present_size F (future pricing m) <= 1048576 * 2 ^ 50 /\ Rabs (present_value F (future pricing m)) <= present_size F (future pricing m).
Proof.
  intros eval disc pricing m G N F.
  assert (R : forall p, In p (future pricing m) -> 0 <= Rabs (value (snd p)) * F (fst p) <= 2 ^ 50 /\ Rabs (value (snd p) * F (fst p)) <= Rabs (value (snd p)) * F (fst p)).
  { intros p I. apply filter_In in I. destruct I as [I L]. apply Z.ltb_lt in L. rewrite List.Forall_forall in G. destruct (G p I) as (_ & B & Q).
    pose proof (factor_range eval disc (fst p) (Q L)) as X. fold F in X. rewrite p20 in X. rewrite p30 in B. rewrite p50. pose proof (Rabs_pos (value (snd p))) as Y. split; [split|].
    - apply Rmult_le_pos; [exact Y|]. apply Rle_trans with (/ 1048576); lra.
    - apply Rle_trans with (1073741824 * 1048576); [apply Rmult_le_compat; try lra; apply Rle_trans with (/ 1048576); lra|lra].
    - rewrite Rabs_mult, (Rabs_pos_eq (F (fst p))) by (apply Rle_trans with (/ 1048576); lra). lra. }
  split.
  - split; [apply sum_nonneg; intros p I; apply R; exact I|].
    apply Rle_trans with (INR (length (future pricing m)) * 2 ^ 50); [apply sum_bound; intros p I; apply R; exact I|].
    apply Rmult_le_compat_r; [apply pow_le; lra|]. rewrite INR_IZR_INZ. apply IZR_le. exact N.
  - apply sum_abs. intros p I. apply R. exact I.
Qed.
Lemma two_n : forall n : nat, 0 < 2 ^ n. Proof. intro n. apply pow_lt. lra. Qed.
Lemma quotient_close : forall s y v D A B n, fn s v -> fn y D -> / 2 ^ 20 <= D <= 2 ^ 20 -> 0 <= n <= 1048576 -> 0 <= B <= 1048576 * 2 ^ 50 -> Rabs A <= B ->
  Rabs (v - A) <= (2 * n * e24 + 2 * e24) * B + n * (2 * tiny) ->
  exists x, fn (gdiv s y) x /\ Rabs (x - A / D) <= B / D * ((n + 2) / 2 ^ 23) + (n + 1) / 2 ^ 120.
Proof.
  intros s y v D A B n Fs Fy HD Hn HB HA V. rewrite p20 in HD. rewrite p50 in HB.
  assert (PD : 0 < D) by (apply Rlt_le_trans with (/ 1048576); lra).
  assert (ID : 0 < / D <= 1048576). { split; [apply Rinv_0_lt_compat; exact PD|]. rewrite <- (Rinv_inv 1048576). apply Rinv_le; lra. }
  pose proof tiny_1 as T1. pose proof QBondProofs.tiny_small as TS.
  set (M := 2 * n * e24 + 2 * e24) in *. assert (MM : 0 <= M <= / 4) by (unfold M, e24; lra).
  assert (MB : 0 <= M * B <= / 4 * B) by (split; [apply Rmult_le_pos; lra|apply Rmult_le_compat_r; lra]).
  assert (NT : 0 <= n * (2 * tiny) <= 1048576 * 2) by (split; [apply Rmult_le_pos; lra|apply Rmult_le_compat; lra]).
  assert (Va : Rabs v <= 2 * B + 2097152).
  { replace v with (A + (v - A)) by ring. apply Rle_trans with (1 := Rabs_triang _ _). lra. }
  assert (Q0 : Rabs (v / D) <= bpow radix2 127).
  { apply two100_127. unfold Rdiv. rewrite Rabs_mult, (Rabs_pos_eq (/ D)) by lra. apply Rle_trans with ((2 * B + 2097152) * 1048576); [apply Rmult_le_compat; try lra; apply Rabs_pos|]. unfold two100. lra. }
  destruct (div_err s y v D Fs Fy ltac:(lra) Q0) as (x & d & t & Fx & Hd & Ht & Ex). exists x. split; [exact Fx|].
  replace (x - A / D) with ((v - A) * / D * (1 + d) + A * / D * d + t) by (rewrite Ex; unfold Rdiv; ring).
  apply Rle_trans with (1 := Rabs_triang _ _). apply Rle_trans with (Rabs ((v - A) * / D * (1 + d)) + Rabs (A * / D * d) + tiny); [apply Rplus_le_compat; [apply Rabs_triang|exact Ht]|].
  rewrite !Rabs_mult. rewrite (Rabs_pos_eq (/ D)) by lra.
  assert (D1 : Rabs (1 + d) <= 1 + e24) by (apply Rle_trans with (1 := Rabs_triang _ _); rewrite Rabs_R1; lra).
  assert (X1 : Rabs (v - A) * / D * Rabs (1 + d) <= (M * B + n * (2 * tiny)) * / D * (1 + e24)).
  { apply Rmult_le_compat; [apply Rmult_le_pos; [apply Rabs_pos|lra]|apply Rabs_pos| |exact D1]. apply Rmult_le_compat_r; lra. }
  assert (X2 : Rabs A * / D * Rabs d <= B * / D * e24).
  { apply Rmult_le_compat; [apply Rmult_le_pos; [apply Rabs_pos|lra]|apply Rabs_pos| |exact Hd]. apply Rmult_le_compat_r; lra. }
  assert (P23 : 2 ^ 23 = 8388608) by (rewrite pow_IZR; reflexivity). rewrite P23.
  assert (X3 : M * B * / D * (1 + e24) + B * / D * e24 <= B / D * ((n + 2) / 8388608)).
  { unfold Rdiv. assert (BD : 0 <= B * / D) by (apply Rmult_le_pos; lra). replace (M * B * / D * (1 + e24) + B * / D * e24) with (B * / D * (M * (1 + e24) + e24)) by ring.
    apply Rmult_le_compat_l; [exact BD|]. assert (M * e24 <= / 4 * e24) by (apply Rmult_le_compat_r; [unfold e24; lra|lra]). unfold M, e24 in *. lra. }
  assert (X4 : n * (2 * tiny) * / D * (1 + e24) <= n * (4194304 * tiny)).
  { rewrite !Rmult_assoc. apply Rmult_le_compat_l; [lra|]. assert (tiny * (/ D * (1 + e24)) <= tiny * 2097152); [|lra]. apply Rmult_le_compat_l; [lra|].
    apply Rle_trans with (1048576 * 2); [apply Rmult_le_compat; try lra; unfold e24; lra|lra]. }
  assert (TT : 4194304 * tiny <= / 2 ^ 120).
  { replace 4194304 with (bpow radix2 22) by (change (bpow radix2 22) with (IZR 4194304); reflexivity). unfold tiny. rewrite <- bpow_plus. apply Rle_trans with (bpow radix2 (Z.opp 120)); [apply bpow_le; lia|].
    rewrite (bpow_opp radix2 120). rewrite <- (IZR_Zpower radix2 120) by lia. rewrite pow_IZR. apply Rle_refl. }
  assert (X5 : n * (4194304 * tiny) <= n * / 2 ^ 120) by (apply Rmult_le_compat_l; lra).
  apply Rle_trans with ((M * B + n * (2 * tiny)) * / D * (1 + e24) + B * / D * e24 + tiny); [lra|].
  replace ((M * B + n * (2 * tiny)) * / D * (1 + e24) + B * / D * e24 + tiny) with ((M * B * / D * (1 + e24) + B * / D * e24) + n * (2 * tiny) * / D * (1 + e24) + tiny) by ring.
  replace ((n + 1) / 2 ^ 120) with (n * / 2 ^ 120 + / 2 ^ 120) by (unfold Rdiv; ring). lra.
Qed.

(** what the cash flows are worth on the pricing day, up to rounding, in
    whatever order the map is iterated *)
Theorem c147_value : forall f_ln order eval disc fwd past b m, iterates order -> let pricing := pricing_of b eval in
  cashflows f_ln b eval pricing fwd past = Ret (ROk m) -> Forall (good_flow eval disc pricing) m -> priced eval disc pricing -> (Z.of_nat (length (future pricing m)) <= 1048576)%Z ->
  let n := INR (length (future pricing m)) in let F := factor_on eval disc in
  exists x, bond_npv f_ln order eval disc fwd past b = Ret (ROk x) /\ finite x /\
    Rabs (value x - present_value F (future pricing m) / F pricing) <= present_size F (future pricing m) / F pricing * ((n + 2) / 2 ^ 23) + (n + 1) / 2 ^ 120.
Proof.
  intros f_ln order eval disc fwd past b m IT pricing C G P N n F. unfold bond_npv. fold pricing. rewrite C. cbn [rbind].
  destruct (discounted_value order eval disc pricing m IT G N) as (s & v & E & Fs & V). fold n F in V. rewrite E. cbn [rbind].
  pose proof (factor_range eval disc pricing P) as R. destruct P as (D & ED & FD & BD). rewrite ED. cbn [rbind].
  assert (EF : F pricing = value D) by (unfold F, factor_on; rewrite ED; reflexivity). rewrite EF.
  destruct (size_range eval disc pricing m G N) as [S1 S2]. fold F in S1, S2.
  assert (NN : 0 <= n <= 1048576) by (unfold n; rewrite INR_IZR_INZ; split; apply IZR_le; lia).
  destruct (quotient_close s D v (value D) _ _ n Fs (conj FD eq_refl) BD NN S1 S2 V) as (x & [Fx Vx] & Q).
  exists (gdiv s D). split; [reflexivity|]. split; [exact Fx|]. unfold value at 1. rewrite Vx. exact Q.
Qed.
(** two runs differ by rounding only *)
Theorem c147_orders : forall f_ln o1 o2 eval disc fwd past b m, iterates o1 -> iterates o2 -> let pricing := pricing_of b eval in
  cashflows f_ln b eval pricing fwd past = Ret (ROk m) -> Forall (good_flow eval disc pricing) m -> priced eval disc pricing -> (Z.of_nat (length (future pricing m)) <= 1048576)%Z ->
  let n := INR (length (future pricing m)) in let F := factor_on eval disc in
  exists x1 x2, bond_npv f_ln o1 eval disc fwd past b = Ret (ROk x1) /\ bond_npv f_ln o2 eval disc fwd past b = Ret (ROk x2) /\
    Rabs (value x1 - value x2) <= present_size F (future pricing m) / F pricing * ((n + 2) / 2 ^ 22) + (n + 1) / 2 ^ 119.
Proof.
  intros f_ln o1 o2 eval disc fwd past b m I1 I2 pricing C G P N n F.
  destruct (c147_value f_ln o1 eval disc fwd past b m I1 C G P N) as (x1 & E1 & _ & V1). destruct (c147_value f_ln o2 eval disc fwd past b m I2 C G P N) as (x2 & E2 & _ & V2).
  exists x1, x2. split; [exact E1|]. split; [exact E2|]. fold pricing n F in V1, V2.
  replace (value x1 - value x2) with ((value x1 - present_value F (future pricing m) / F pricing) - (value x2 - present_value F (future pricing m) / F pricing)) by ring.
  apply Rle_trans with (1 := Rabs_triang _ _). rewrite Rabs_Ropp.
  change (2 ^ 23) with (2 * 2 ^ 22) in V1, V2. change (2 ^ 120) with (2 * 2 ^ 119) in V1, V2. pose proof (two_n 22) as T1. pose proof (two_n 119) as T2.
  assert (H1 : forall X, X / (2 * 2 ^ 22) = X / 2 ^ 22 / 2) by (intro; field; lra). assert (H2 : forall X, X / (2 * 2 ^ 119) = X / 2 ^ 119 / 2) by (intro; field; lra).
  rewrite H1, H2 in V1, V2. set (c := present_size F (future pricing m) / F pricing) in *. set (g := (n + 2) / 2 ^ 22) in *. set (h := (n + 1) / 2 ^ 119) in *. clearbody c g h. lra.
Qed.
(** a day on which a curve prices: within its times, with rates of 0 to 10% *)
Theorem c147_priced : forall f_exp c eval d t t9, good_exp f_exp -> reached f_exp c -> Forall (fun r => 0 <= value r <= 0.1) (cv_rates c) ->
  get_time_difference eval d = Ret t -> finite t -> nth_error (cv_times c) 28 = Some t9 -> 0 <= value t < value t9 -> priced eval c d.
Proof.
  intros f_exp c eval d t t9 GE H RR E Ft H9 B. destruct (c135_positive f_exp c t t9 GE H RR Ft H9 B) as (D & ED & FD & BD). exists D.
  rewrite (c137_date eval c d t E Ft (proj1 B)). split; [exact ED|]. split; [exact FD|]. rewrite p20. assert (P18 : 2 ^ 18 = 262144) by (rewrite pow_IZR; reflexivity). rewrite P18 in BD. lra.
Qed.
(** an error of the cash flows, or of a discount factor, is the result *)
Theorem c147_errors : forall f_ln order eval disc fwd past b, let pricing := pricing_of b eval in
  (cashflows f_ln b eval pricing fwd past = Ret RErr -> bond_npv f_ln order eval disc fwd past b = Ret RErr) /\
  (forall m, iterates order -> cashflows f_ln b eval pricing fwd past = Ret (ROk m) -> (forall p, In p m -> (od_day pricing < od_day (fst p))%Z -> exists x, discount_at eval disc (fst p) = Ret x) ->
     (exists p, In p m /\ (od_day pricing < od_day (fst p))%Z /\ discount_at eval disc (fst p) = Ret RErr) -> bond_npv f_ln order eval disc fwd past b = Ret RErr) /\
  (forall m, cashflows f_ln b eval pricing fwd past = Ret (ROk m) -> future pricing (order m) = [] -> discount_at eval disc pricing = Ret RErr -> bond_npv f_ln order eval disc fwd past b = Ret RErr).
Proof.
  intros f_ln order eval disc fwd past b pricing. unfold bond_npv. fold pricing. split; [|split].
  - intros ->. reflexivity.
  - intros m IT -> A (p & I & L & E). cbn [rbind]. rewrite discounted_fails; [reflexivity| |].
    + intros q J. apply A. apply (Permutation_in q (IT m)). exact J.
    + exists p. split; [apply (Permutation_in p (Permutation_sym (IT m))); exact I|]. auto.
  - intros m -> FE E. cbn [rbind]. rewrite E. assert (Q : forall l s, future pricing l = [] -> discounted l eval disc pricing s = Ret (ROk s)).
    { induction l as [|[d x] l IH]; intros s H; [reflexivity|]. unfold future in *. cbn [filter fst] in H. cbn [discounted]. destruct (od_day pricing <? od_day d)%Z; [discriminate H|]. apply IH. exact H. }
    rewrite (Q _ _ FE). reflexivity.
Qed.

(** ** C148: the itemised value *)
Open Scope Z_scope.
Lemma hm_append : forall {V} k (v : V) l, ~ In k (map fst l) -> hm_insert k v l = (l ++ [(k, v)])%list.
Proof.
  intros V k v. induction l as [|[a w] l IH]; intro H; [reflexivity|]. cbn in *. destruct (Z.eqb_spec a k) as [E|E]; [exfalso; apply H; left; exact E|].
  f_equal. apply IH. intro Q. apply H. right. exact Q.
Qed.
Lemma date_append : forall d v l, ~ In (instant d) (map (fun p => instant (fst p)) l) -> date_insert d v l = (l ++ [(d, v)])%list.
Proof.
  intros d v. induction l as [|[a w] l IH]; intro H; [reflexivity|]. cbn in *. destruct (Z.eqb_spec (instant a) (instant d)) as [E|E]; [exfalso; apply H; left; exact E|].
  f_equal. apply IH. intro Q. apply H. right. exact Q.
Qed.
Lemma listed_is : forall eval disc pricing l i r, (forall p, In p l -> od_day pricing <= od_day (fst p)) -> (forall k, In k (map fst (nr_amounts r)) -> k < i) -> (forall k, In k (map fst (nr_probs r)) -> k < i) ->
  listed l i eval disc pricing r =
  rbind (discounted l eval disc pricing (nr_npv r)) (fun x => Ret (ROk (NpvResult x (nr_amounts r ++ numbered i l) (nr_probs r ++ numbered i (map (fun p => (fst p, gof_Z 1)) l))))).
Proof.
  intros eval disc pricing l. induction l as [|[d x] l IH]; intros i r A B C.
  - cbn. rewrite !app_nil_r. destruct r; reflexivity.
  - cbn [listed discounted]. pose proof (A (d, x) (or_introl eq_refl)) as Ad. cbn [fst] in Ad. rewrite (proj2 (Z.leb_le _ _) Ad).
    assert (NA : ~ In i (map fst (nr_amounts r))) by (intro Q; apply B in Q; lia). assert (NP : ~ In i (map fst (nr_probs r))) by (intro Q; apply C in Q; lia).
    assert (G : forall s, listed l (i + 1) eval disc pricing (NpvResult s (hm_insert i (d, x) (nr_amounts r)) (hm_insert i (d, gof_Z 1) (nr_probs r))) =
      rbind (discounted l eval disc pricing s) (fun x0 => Ret (ROk (NpvResult x0 (nr_amounts r ++ numbered i ((d, x) :: l)) (nr_probs r ++ numbered i (map (fun p => (fst p, gof_Z 1)) ((d, x) :: l))))))).
    { intro s. rewrite (hm_append i (d, x)) by exact NA. rewrite (hm_append i (d, gof_Z 1)) by exact NP. rewrite IH; cbn [nr_amounts nr_probs nr_npv].
      - cbn [numbered map fst]. rewrite <- !app_assoc. reflexivity.
      - intros p I. apply A. right. exact I.
      - intros k I. rewrite map_app in I. apply in_app_or in I. destruct I as [I|[I|[]]]; [apply B in I; lia|cbn in I; lia].
      - intros k I. rewrite map_app in I. apply in_app_or in I. destruct I as [I|[I|[]]]; [apply C in I; lia|cbn in I; lia]. }
    destruct (od_day pricing <? od_day d).
    + destruct (discount_at eval disc d) as [[y|]| |]; cbn [rbind nr_npv nr_amounts nr_probs]; try reflexivity. apply G.
    + cbn [rbind]. apply G.
Qed.
Lemma due_all : forall f_ln b eval pricing fwd past m, cashflows f_ln b eval pricing fwd past = Ret (ROk m) -> forall p, In p m -> od_day pricing <= od_day (fst p).
Proof.
  intros f_ln b eval pricing fwd past m.
  assert (AD : forall d x m0, od_day pricing <= od_day d -> (forall p, In p m0 -> od_day pricing <= od_day (fst p)) -> forall p, In p (cash_add d x m0) -> od_day pricing <= od_day (fst p)).
  { intros d x. induction m0 as [|[e v] m0 IH]; intros L H p I.
    - destruct I as [<-|[]]. exact L.
    - cbn [cash_add] in I. destruct (instant e =? instant d).
      + destruct I as [<-|I]; [exact (H (e, v) (or_introl eq_refl))|apply H; right; exact I].
      + destruct I as [<-|I]; [exact (H (e, v) (or_introl eq_refl))|]. apply IH; [exact L| |exact I]. intros q J. apply H. right. exact J. }
  assert (RW : forall rows m0 m1, (forall p, In p m0 -> od_day pricing <= od_day (fst p)) -> cash_rows f_ln b rows eval fwd past pricing m0 = Ret (ROk m1) -> forall p, In p m1 -> od_day pricing <= od_day (fst p)).
  { induction rows as [|r rows IH]; intros m0 m1 H E; cbn [cash_rows] in E.
    - assert (m0 = m1) by congruence. subst m1. exact H.
    - destruct (Z.ltb_spec (od_day (payment_date (rw_dates r))) (od_day pricing)) as [L|L]; [exact (IH m0 m1 H E)|].
      destruct (row_amount f_ln b r eval fwd past pricing) as [[x|]| |]; cbn [rbind] in E; try discriminate E.
      refine (IH _ m1 _ E). apply AD; assumption. }
  unfold cashflows. destruct (cash_rows f_ln b (bd_rows b) eval fwd past pricing []) as [[m0|]| |] eqn:E0; cbn [rbind]; intro E; try discriminate E.
  pose proof (RW _ [] m0 (fun p I => match I with end) E0) as A0.
  destruct (negb (bd_strip b) && (od_day pricing <=? od_day (bd_maturity b))) eqn:K.
  - apply andb_true_iff in K. destruct K as [_ K]. apply Z.leb_le in K. assert (m = cash_add (bd_maturity b) (gof_Z 1) m0) by congruence. subst m. apply AD; assumption.
  - assert (m = m0) by congruence. subst m. exact A0.
Qed.
(** the same value as [npv]; every cash flow once, under the numbers from 0, each with probability 1 *)
Theorem c148_items : forall f_ln order eval disc fwd past b, iterates order -> let pricing := pricing_of b eval in
  (forall m x, cashflows f_ln b eval pricing fwd past = Ret (ROk m) -> bond_npv f_ln order eval disc fwd past b = Ret (ROk x) ->
     bond_npv_result f_ln order eval disc fwd past b = Ret (ROk (NpvResult x (numbered 0 (order m)) (numbered 0 (map (fun p => (fst p, gof_Z 1)) (order m)))))) /\
  (bond_npv f_ln order eval disc fwd past b = Ret RErr -> bond_npv_result f_ln order eval disc fwd past b = Ret RErr).
Proof.
  intros f_ln order eval disc fwd past b IT pricing. unfold bond_npv, bond_npv_result. fold pricing.
  destruct (cashflows f_ln b eval pricing fwd past) as [[m0|]| |] eqn:C; cbn [rbind]; try (split; [intros m x Q; discriminate Q|intro; congruence]).
  rewrite listed_is; [cbn [nr_npv nr_amounts nr_probs app]| |intros k []|intros k []].
  - destruct (discounted (order m0) eval disc pricing (gof_Z 0)) as [[s|]| |]; cbn [rbind].
    2: { split; [intros m x _ Q; discriminate Q|reflexivity]. }
    2: { split; [intros m x _ Q; discriminate Q|intro Q; discriminate Q]. }
    2: { split; [intros m x _ Q; discriminate Q|intro Q; discriminate Q]. }
    destruct (discount_at eval disc pricing) as [[y|]| |]; cbn [rbind nr_npv nr_amounts nr_probs].
    + split; [|intro Q; discriminate Q]. intros m x Q1 Q2. assert (m = m0) by congruence. assert (x = gdiv s y) by congruence. subst. reflexivity.
    + split; [intros m x _ Q; discriminate Q|reflexivity].
    + split; [intros m x _ Q; discriminate Q|intro Q; discriminate Q].
    + split; [intros m x _ Q; discriminate Q|intro Q; discriminate Q].
  - intros p I. apply (due_all f_ln b eval pricing fwd past m0 C). apply (Permutation_in p (IT m0)). exact I.
Qed.
(** [x * 1.0] *)
Lemma times_one : forall x : f32, finite x -> gmul x (gof_Z 1) = x.
Proof.
  intros x Fx. pose proof one_fn as [F1 V1]. 
  pose proof (Bmult_correct 24 128 _ _ mode_NE x (gof_Z 1)) as H. cbv zeta in H. rewrite V1, Rmult_1_r in H.
  change (round radix2 (SpecFloat.fexp 24 128) (round_mode mode_NE) (B2R x)) with (rnd 24 128 (B2R x)) in H. rewrite rnd_B2R in H.
  rewrite Rlt_bool_true in H by (apply abs_B2R_lt_emax). destruct H as (H1 & H2 & H3). rewrite Fx, F1 in H2. cbn [andb] in H2.
  unfold gmul. apply (B2R_Bsign_inj _ _ _ _ H2 Fx H1). rewrite H3; [|].
  - change (Bsign (gof_Z 1)) with false. apply xorb_false_r.
  - destruct (Bmult mode_NE x (gof_Z 1)); cbn in H2 |- *; congruence.
Qed.

Lemma lookup_in : forall {V} (l : list (Z * V)) k v, NoDup (map fst l) -> In (k, v) l -> lookup k l = Some v.
Proof.
  intros V. induction l as [|[a w] l IH]; intros k v ND I; [destruct I|]. cbn [map fst] in ND. inversion ND as [|? ? N1 N2]; subst. cbn [lookup]. destruct I as [I|I].
  - injection I as <- <-. rewrite Z.eqb_refl. reflexivity.
  - destruct (Z.eqb_spec a k) as [E|E]; [|apply IH; assumption]. exfalso. apply N1. rewrite E. change k with (fst (k, v)). apply in_map. exact I.
Qed.
Lemma numbered_keys : forall {A} (l : list A) i k, In k (map fst (numbered i l)) -> i <= k.
Proof. intros A. induction l as [|a l IH]; intros i k I; [destruct I|]. cbn in I. destruct I as [<-|I]; [lia|]. apply IH in I. lia. Qed.
Lemma numbered_nodup : forall {A} (l : list A) i, NoDup (map fst (numbered i l)).
Proof. intros A. induction l as [|a l IH]; intro i; cbn; constructor; [|apply IH]. intro Q. apply numbered_keys in Q. lia. Qed.
Lemma numbered_map : forall {A B} (f : A -> B) l i, numbered i (map f l) = map (fun p => (fst p, f (snd p))) (numbered i l).
Proof. intros A B f. induction l as [|a l IH]; intro i; cbn; [reflexivity|]. rewrite IH. reflexivity. Qed.
Lemma numbered_snd : forall {A} (l : list A) i, map snd (numbered i l) = l.
Proof. intros A. induction l as [|a l IH]; intro i; cbn; [reflexivity|]. rewrite IH. reflexivity. Qed.
Lemma expected_is : forall probs (l : list (Z * (odt * f32))) res,
  (forall i d x, In (i, (d, x)) l -> finite x /\ exists d', lookup i probs = Some (d', gof_Z 1)) -> NoDup (map (fun p => instant (fst p)) (res ++ map snd l)) ->
  expected_loop l probs res = ROk (res ++ map snd l).
Proof.
  intros probs. induction l as [|[i [d x]] l IH]; intros res A ND; cbn [expected_loop map snd].
  - rewrite app_nil_r. reflexivity.
  - destruct (A i d x (or_introl eq_refl)) as (Fx & d' & E). rewrite E. rewrite (times_one x Fx).
    assert (NI : ~ In (instant d) (map (fun p => instant (fst p)) res)).
    { cbn [map snd] in ND. rewrite map_app in ND. cbn [map fst] in ND. apply NoDup_remove_2 in ND. intro Q. apply ND. apply in_or_app. left. exact Q. }
    rewrite (date_append d x res NI). rewrite IH.
    + rewrite <- app_assoc. reflexivity.
    + intros j e y I. apply (A j e y). right. exact I.
    + rewrite <- app_assoc. exact ND.
Qed.
(** what is then expected on each day is the cash flow of that day *)
Theorem c148_expected : forall order order' m x, iterates order -> iterates order' -> NoDup (map (fun p => instant (fst p)) m) -> Forall (fun p => finite (snd p)) m ->
  exists l, expected_coupons order' (NpvResult x (numbered 0 (order m)) (numbered 0 (map (fun p => (fst p, gof_Z 1)) (order m)))) = ROk l /\ Permutation l m.
Proof.
  intros order order' m x I1 I2 ND FF. unfold expected_coupons. cbn [nr_amounts nr_probs].
  set (am := numbered 0 (order m)). pose proof (I2 am) as P2. pose proof (I1 m) as P1.
  assert (PM : Permutation (map snd (order' am)) m).
  { apply Permutation_trans with (map snd am); [apply Permutation_map; exact P2|]. unfold am. rewrite numbered_snd. exact P1. }
  exists (map snd (order' am)). split; [|exact PM]. change (map snd (order' am)) with ([] ++ map snd (order' am))%list at 1. apply expected_is.
  - intros i d y I. apply (Permutation_in _ P2) in I. split.
    + rewrite List.Forall_forall in FF. apply (FF (d, y)). apply (Permutation_in _ P1). unfold am in I. rewrite <- (numbered_snd (order m) 0). change (d, y) with (snd (i, (d, y))). apply in_map. exact I.
    + exists d. apply lookup_in; [apply numbered_nodup|]. rewrite numbered_map. apply in_map_iff. exists (i, (d, y)). split; [reflexivity|exact I].
  - cbn [app]. apply (Permutation_NoDup (Permutation_sym (Permutation_map _ PM))). exact ND.
Qed.
(** cash flow maps have one entry per point in time *)
Theorem c148_distinct : forall f_ln b eval pricing fwd past m, cashflows f_ln b eval pricing fwd past = Ret (ROk m) -> NoDup (map (fun p => instant (fst p)) m).
Proof.
  intros f_ln b eval pricing fwd past m.
  assert (AD : forall d x m0, NoDup (map (fun p => instant (fst p)) m0) -> NoDup (map (fun p => instant (fst p)) (cash_add d x m0))).
  { intros d x m0 H. destruct (in_dec Z.eq_dec (instant d) (map (fun p => instant (fst p)) m0)) as [I|I].
    - rewrite cash_add_keys by exact I. exact H.
    - rewrite cash_add_new by exact I. rewrite map_app. cbn. apply (Permutation_NoDup (Permutation_cons_append _ _)). constructor; assumption. }
  assert (RW : forall rows m0 m1, NoDup (map (fun p => instant (fst p)) m0) -> cash_rows f_ln b rows eval fwd past pricing m0 = Ret (ROk m1) -> NoDup (map (fun p => instant (fst p)) m1)).
  { induction rows as [|r rows IH]; intros m0 m1 H E; cbn [cash_rows] in E.
    - assert (m0 = m1) by congruence. subst m1. exact H.
    - destruct (od_day (payment_date (rw_dates r)) <? od_day pricing); [exact (IH m0 m1 H E)|].
      destruct (row_amount f_ln b r eval fwd past pricing) as [[x|]| |]; cbn [rbind] in E; try discriminate E. exact (IH _ m1 (AD _ _ _ H) E). }
  unfold cashflows. destruct (cash_rows f_ln b (bd_rows b) eval fwd past pricing []) as [[m0|]| |] eqn:E0; cbn [rbind]; intro E; try discriminate E.
  pose proof (RW _ [] m0 (NoDup_nil _) E0) as A0.
  destruct (negb (bd_strip b) && (od_day pricing <=? od_day (bd_maturity b))).
  - assert (m = cash_add (bd_maturity b) (gof_Z 1) m0) by congruence. subst m. apply AD. exact A0.
  - assert (m = m0) by congruence. subst m. exact A0.
Qed.
(** REFUTED in general: two numbered amounts on one day are not added up, one
    of them is lost *)
Theorem c148_same_day_refuted : exists r d, nr_amounts r = [(0, (d, gof_Z 3)); (1, (d, gof_Z 4))] /\ nr_probs r = [(0, (d, gof_Z 1)); (1, (d, gof_Z 1))] /\
  (exists x, expected_coupons (fun l => l) r = ROk [(d, x)] /\ geq x (gof_Z 4) = true) /\
  (exists x, expected_coupons (@rev _) r = ROk [(d, x)] /\ geq x (gof_Z 3) = true).
Proof.
  exists (NpvResult (gof_Z 7) [(0, (Odt 0 0 0, gof_Z 3)); (1, (Odt 0 0 0, gof_Z 4))] [(0, (Odt 0 0 0, gof_Z 1)); (1, (Odt 0 0 0, gof_Z 1))]), (Odt 0 0 0).
  split; [reflexivity|]. split; [reflexivity|]. split; eexists; (split; [reflexivity|]); vm_compute; reflexivity.
Qed.

(** ** The order of iteration matters for the last digits *)
Definition day_of (y m d : Z) : odt := civil y m d (9 * 3600 * 1000000000) (9 * 3600).
Definition paid (d : odt) (x : f32) : row := Row (Coupon d d d d) (Some x).
Definition ex_bond (strip : bool) (rows : list row) (maturity : odt) : bond :=
  Bond (gof_Z 1) strip rows (Some sixteenth) None None None (day_of 2024 1 1) (day_of 2024 1 1) None maturity (One (new_south_korea KrKrx)) StreetConvention ModifiedFollowing SemiAnnually 0 0.
Definition zero_data : vector_data := VectorData [gof_Z 0] None [gof_Z 1] None.
Definition ex_order_bond : bond := ex_bond true [paid (day_of 2024 9 16) (gof_Z 16777216); paid (day_of 2025 3 17) (gof_Z 1); paid (day_of 2025 9 15) (gof_Z 1)] (day_of 2025 9 15).
Definition npv_is (f : f32 -> f32) (eval : odt) (data : vector_data) (b : bond) (order : list (odt * f32) -> list (odt * f32)) (x : f32) : bool :=
  match curve_new f eval data with
  | Ret (ROk c) => match bond_npv (fun x => x) order eval c None None b with Ret (ROk y) => is_finite y && geq y x | _ => false end
  | _ => false
  end.
Lemma npv_is_some : forall f eval data b order x v, fn x v -> npv_is f eval data b order x = true ->
  exists c y, curve_new f eval data = Ret (ROk c) /\ bond_npv (fun x => x) order eval c None None b = Ret (ROk y) /\ value y = v.
Proof.
  intros f eval data b order x v Fx H. unfold npv_is in H. destruct (curve_new f eval data) as [[c|]| |]; try discriminate H.
  destruct (bond_npv (fun x => x) order eval c None None b) as [[y|]| |] eqn:E; try discriminate H. exists c, y. split; [reflexivity|]. split; [exact E|].
  apply andb_true_iff in H. destruct H as [F1 B1]. exact (proj1 (fin_eq 24 128 _ _ _ _ (conj F1 eq_refl) Fx) B1).
Qed.
Definition zero_times (eval : odt) : bool :=
  match curve_times eval with Ret ts => forallb (fun t => is_finite (gneg (gmul (gof_Z 0) t)) && geq (gneg (gmul (gof_Z 0) t)) (gof_Z 0)) ts | _ => false end.
Lemma is_one : forall x : f32, finite x -> value x = 1%R -> x = gof_Z 1.
Proof.
  intros x Fx V. pose proof one_fn as [F1 V1]. apply (B2R_Bsign_inj _ _ _ _ Fx F1); [unfold value in V; congruence|]. change (Bsign (gof_Z 1)) with false.
  destruct x as [| | |[] m e B]; try discriminate Fx; try reflexivity; unfold value in V; cbn in V; [lra|]. 
  exfalso. assert (F2R (Float radix2 (Z.neg m) e) < 0)%R by (apply F2R_lt_0; reflexivity). lra.
Qed.
Lemma zero_curve_at : forall f_exp eval, good_exp f_exp -> zero_times eval = true -> curve_new f_exp eval zero_data = curve_new (fun _ => gof_Z 1) eval zero_data.
Proof.
  intros f_exp eval [G _] ZT. unfold curve_new. cbn [vd_times vd_value zero_data length Nat.eqb negb rbind].
  unfold zero_times in ZT.
  destruct (curve_times eval) as [ts| |]; [|reflexivity|reflexivity]. cbn [obind rates_at constant_vectorized rbind].
  rewrite forallb_forall in ZT.
  assert (FE : forall n, factors f_exp (repeat (gof_Z 0 : f32) n) ts = factors (fun _ => gof_Z 1 : f32) (repeat (gof_Z 0 : f32) n) ts); [|rewrite FE; reflexivity].
  unfold factors. induction ts as [|t ts IH]; intros [|n]; try reflexivity. cbn [repeat map combine fst snd]. f_equal; [|apply IH; intros u I; apply ZT; right; exact I].
  specialize (ZT t (or_introl eq_refl)). apply andb_true_iff in ZT. destruct ZT as [Fz Ez].
  assert (VZ : value (gneg (gmul (gof_Z 0) t)) = 0%R).
  { apply (proj1 (fin_eq 24 128 _ _ _ 0%R (conj Fz eq_refl) (conj (eq_refl : is_finite (gof_Z 0) = true) eq_refl))) in Ez. exact Ez. }
  destruct (G _ Fz VZ) as [F V]. exact (is_one _ F V).
Qed.
Lemma zero_curve : forall f_exp, good_exp f_exp -> curve_new f_exp ex_eval zero_data = curve_new (fun _ => gof_Z 1) ex_eval zero_data.
Proof. intros f_exp G. apply zero_curve_at; [exact G|]. vm_compute. reflexivity. Qed.
(** REFUTED: the value is not determined to the last digit; it depends on the
    order in which the map of the cash flows is iterated, here by 2 *)
Theorem c147_order_refuted : forall f_exp, good_exp f_exp -> exists c x1 x2, curve_new f_exp ex_eval zero_data = Ret (ROk c) /\
  iterates (fun l : list (odt * f32) => l) /\ iterates (@rev (odt * f32)) /\
  bond_npv (fun x => x) (fun l => l) ex_eval c None None ex_order_bond = Ret (ROk x1) /\ bond_npv (fun x => x) (@rev _) ex_eval c None None ex_order_bond = Ret (ROk x2) /\
  value x1 = 16777216%R /\ value x2 = 16777218%R.
Proof.
  intros f_exp GE. rewrite (zero_curve f_exp GE).
  assert (N1 : fn (gof_Z 16777216) 16777216%R) by (split; [reflexivity|cbn; unfold F2R; cbn -[IZR]; lra]). assert (N2 : fn (gof_Z 16777218) 16777218%R) by (split; [reflexivity|cbn; unfold F2R; cbn -[IZR]; lra]).
  destruct (npv_is_some (fun _ => gof_Z 1) ex_eval zero_data ex_order_bond (fun l => l) _ _ N1) as (c & x1 & C1 & E1 & V1); [vm_compute; reflexivity|].
  destruct (npv_is_some (fun _ => gof_Z 1) ex_eval zero_data ex_order_bond (@rev _) _ _ N2) as (c' & x2 & C2 & E2 & V2); [vm_compute; reflexivity|].
  assert (CC : c' = c) by congruence. rewrite CC in E2. exists c, x1, x2. split; [exact C1|]. split; [intro l; apply Permutation_refl|]. split; [intro l; apply Permutation_sym, Permutation_rev|].
  split; [exact E1|]. split; [exact E2|]. split; [exact V1|exact V2].
Qed.

(** ** The hypotheses are met *)
Definition ex_fixed : bond := ex_bond false [paid (day_of 2024 9 16) sixteenth; paid (day_of 2025 3 17) sixteenth] (day_of 2025 3 17).
Definition time_ok (d : odt) : bool := match get_time_difference ex_eval d with Ret t => is_finite t && gle (gof_Z 0) t && gle t (gof_Z 50) | _ => false end.
Lemma time_priced : forall c t9 d, reached an_exp c -> Forall (fun r => 0 <= value r <= 0.1)%R (cv_rates c) -> nth_error (cv_times c) 28 = Some t9 -> (99 <= value t9)%R -> time_ok d = true -> priced ex_eval c d.
Proof.
  intros c t9 d H RR H9 B T. unfold time_ok in T. destruct (get_time_difference ex_eval d) as [t| |] eqn:E; try discriminate T. apply andb_true_iff in T. destruct T as [T T3]. apply andb_true_iff in T. destruct T as [T1 T2].
  destruct (small_fin 50 ltac:(lia)) as [F50 R50]. unfold real_of in R50.
  apply (proj1 (fin_le 24 128 _ _ _ _ zero_fn (conj T1 eq_refl))) in T2. apply (proj1 (fin_le 24 128 _ _ _ _ (conj T1 eq_refl) (conj F50 eq_refl))) in T3. rewrite R50 in T3.
  refine (c147_priced an_exp c ex_eval d t t9 an_exp_good H RR E T1 H9 _). unfold value in *. lra.
Qed.
Definition flows_ok (b : bond) : bool :=
  match cashflows (fun x => x) b ex_eval (pricing_of b ex_eval) None None with
  | Ret (ROk m) => forallb (fun p => is_finite (snd p) && gle (snd p) (gof_Z 2) && gle (gof_Z 0) (snd p) && time_ok (fst p)) m && (length (future (pricing_of b ex_eval) m) =? 2)%nat
  | _ => false
  end.
Example c147_hypotheses_met : exists f_exp c m, good_exp f_exp /\ reached f_exp c /\ cashflows (fun x => x) ex_fixed ex_eval (pricing_of ex_fixed ex_eval) None None = Ret (ROk m) /\
  length (future (pricing_of ex_fixed ex_eval) m) = 2%nat /\ Forall (good_flow ex_eval c (pricing_of ex_fixed ex_eval)) m /\ priced ex_eval c (pricing_of ex_fixed ex_eval).
Proof.
  destruct ex_curve as (c & t9 & H & RR & H9 & B). exists an_exp, c. assert (FO : flows_ok ex_fixed = true) by (vm_compute; reflexivity). unfold flows_ok in FO.
  destruct (cashflows (fun x => x) ex_fixed ex_eval (pricing_of ex_fixed ex_eval) None None) as [[m|]| |]; try discriminate FO. exists m.
  split; [exact an_exp_good|]. split; [exact H|]. split; [reflexivity|]. apply andb_true_iff in FO. destruct FO as [FO L]. split; [apply Nat.eqb_eq; exact L|].
  split; [|apply (time_priced c t9 _ H RR H9 B); vm_compute; reflexivity].
  rewrite forallb_forall in FO. apply List.Forall_forall. intros p I. specialize (FO p I). apply andb_true_iff in FO. destruct FO as [FO T]. apply andb_true_iff in FO. destruct FO as [FO P0]. apply andb_true_iff in FO. destruct FO as [FF P2].
  split; [exact FF|]. split; [|intros _; exact (time_priced c t9 _ H RR H9 B T)].
  destruct (small_fin 2 ltac:(lia)) as [F2 R2]. unfold real_of in R2. apply (proj1 (fin_le 24 128 _ _ _ _ zero_fn (conj FF eq_refl))) in P0. apply (proj1 (fin_le 24 128 _ _ _ _ (conj FF eq_refl) (conj F2 eq_refl))) in P2. rewrite R2 in P2.
  unfold value. rewrite Rabs_pos_eq by exact P0. rewrite p30. lra.
Qed.
Example c148_hypotheses_met : exists m, cashflows (fun x => x) ex_fixed ex_eval (pricing_of ex_fixed ex_eval) None None = Ret (ROk m) /\ Forall (fun p => finite (snd p)) m /\ length m = 2%nat.
Proof.
  eexists. split; [reflexivity|]. split; [|reflexivity]. repeat (apply Forall_cons; [vm_compute; reflexivity|]). apply Forall_nil.
Qed.
Print Assumptions c147_value.
Print Assumptions c147_orders.
Print Assumptions c147_priced.
Print Assumptions c147_errors.
Print Assumptions c148_items.
Print Assumptions c148_expected.
Print Assumptions c148_distinct.
Print Assumptions c148_same_day_refuted.
Print Assumptions c147_order_refuted.
