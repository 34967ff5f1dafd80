(** QStepProps.v -- stepwise interpolation: the properties (C110-C112). *)
From Coq Require Import ZArith Arith List Bool Lia.
From Verif Require Import Base FloatModel KrxModel QFindModel QFindSpec QFindProofs QFindProps QInterpModel QInterpSpec QInterpProofs.
Import ListNotations.
Open Scope nat_scope.

(** C108, C109 for f32: the order on everything but NaN is total *)
Theorem c108_floats : total_order fcmp number.
Proof. exact f_order. Qed.

(** ** C110: construction *)
Theorem c110_new : forall T (cmp : T -> T -> option comparison) V domain (value : list V) allow l r,
  (length domain = length value /\ domain <> [] /\ (forall i a b, nth_error domain i = Some a -> nth_error domain (i + 1) = Some b -> cmp a b <> Some Gt) /\
     stepwise_new cmp domain value allow l r = Ret (ROk (Stepwise domain value allow l r))) \/
  ((length domain <> length value \/ domain = [] \/ exists i a b, nth_error domain i = Some a /\ nth_error domain (i + 1) = Some b /\ cmp a b = Some Gt) /\
     stepwise_new cmp domain value allow l r = Ret RErr).
Proof.
  intros T cmp V domain value allow l r. unfold stepwise_new. destruct (Nat.eqb_spec (length domain) (length value)) as [L|L]; cbn [negb]; [|right; auto].
  destruct domain as [|x domain]; [right; split; [auto|reflexivity]|]. cbn [length Nat.eqb is_ndarray_sorted obind].
  destruct (sorted_from cmp x domain) eqn:E.
  - left. split; [exact L|]. split; [discriminate|]. split; [apply sorted_from_iff; exact E|reflexivity].
  - right. split; [|reflexivity]. right. right. clear L. revert x E. induction domain as [|y domain IH]; intros x E; cbn [sorted_from] in E; [discriminate E|].
    unfold o_gt in E. destruct (cmp x y) as [[]|] eqn:C.
    3:{ exists 0, x, y. auto. }
    all: destruct (IH y E) as (i & a & b & Ha & Hb & G); exists (S i), a, b; auto.
Qed.
(** comparable knots: accepted exactly if sorted *)
Theorem c110_sorted : forall T (cmp : T -> T -> option comparison) P V domain (value : list V) allow l r, total_order cmp P -> Forall P domain ->
  (stepwise_new cmp domain value allow l r = Ret (ROk (Stepwise domain value allow l r)) <-> length domain = length value /\ domain <> [] /\ sorted cmp domain).
Proof.
  intros T cmp P V domain value allow l r O PD. destruct (c110_new T cmp V domain value allow l r) as [(A & B & C & E)|[C E]]; rewrite E.
  - split; [|reflexivity]. intros _. split; [exact A|]. split; [exact B|]. exact (adjacent_sorted cmp P O domain PD C).
  - split; [discriminate|]. intros (A & B & S). exfalso. destruct C as [C|[C|(i & a & b & Ha & Hb & G)]]; [congruence|congruence|].
    exact (sorted_adjacent cmp P domain PD S i a b Ha Hb G).
Qed.
Example c110_hypotheses_met :
  stepwise_new z_cmp knots [10; 20; 30; 40; 50] true (Some 1) None = Ret (ROk (Stepwise knots [10; 20; 30; 40; 50] true (Some 1) None)) /\
  stepwise_new z_cmp [2; 1]%Z [10; 20] true (Some 1) None = Ret RErr.
Proof. split; reflexivity. Qed.

(** ** C111: one point *)
Section Built.
Context {T V : Type} (cmp : T -> T -> option comparison).
(** an interpolator the constructor returned *)
Definition built (s : stepwise T V) : Prop := exists d v a l r, stepwise_new cmp d v a l r = Ret (ROk s).
Lemma built_shape : forall s, built s -> length (s_domain s) = length (s_value s) /\ s_domain s <> [] /\ 0 < length (s_domain s) /\
  (forall i a b, nth_error (s_domain s) i = Some a -> nth_error (s_domain s) (i + 1) = Some b -> cmp a b <> Some Gt).
Proof.
  intros s (d & v & a & l & r & E). destruct (c110_new T cmp V d v a l r) as [(L & N & C & E')|[_ E']]; rewrite E in E'; [|discriminate E'].
  injection E' as ->. cbn. split; [exact L|]. split; [exact N|]. split; [|exact C]. destruct d; [congruence|cbn; lia].
Qed.
End Built.
Theorem c111_answers : forall T V (cmp : T -> T -> option comparison) (s : stepwise T V) x, built cmp s -> exists r, stepwise_interpolate cmp s x = Ret r.
Proof.
  intros T V cmp s x B. destruct (built_shape cmp s B) as (L & N & G & _). unfold stepwise_interpolate.
  destruct (at_lt _ (s_domain s) 0 G) as (d0 & _ & ->). destruct (at_lt _ (s_domain s) (length (s_domain s) - 1) ltac:(lia)) as (d9 & _ & ->).
  destruct (at_lt _ (s_value s) 0 ltac:(lia)) as (v0 & _ & ->). destruct (at_lt _ (s_value s) (length (s_domain s) - 1) ltac:(lia)) as (v9 & _ & ->).
  destruct (bs_total cmp (s_domain s) x N) as (i & -> & Li). cbn [obind]. destruct (at_lt _ (s_value s) i ltac:(lia)) as (vi & _ & ->). cbn [obind].
  destruct (o_lt cmp x d0), (s_allow s), (s_left s), (o_gt cmp x d9), (s_right s); eauto.
Qed.
(** below the first knot, above the last knot, between *)
Definition outside_answer {V} (allow : bool) (given : option V) (edge : V) : rresult V :=
  if allow then ROk (match given with Some v => v | None => edge end) else RErr.
Theorem c111_value : forall T V (cmp : T -> T -> option comparison) P d (v : list V) allow l r x d0 d9 v0 v9, total_order cmp P -> Forall P d -> P x ->
  strictly_sorted cmp d -> length d = length v ->
  nth_error d 0 = Some d0 -> nth_error d (length d - 1) = Some d9 -> nth_error v 0 = Some v0 -> nth_error v (length d - 1) = Some v9 ->
  let s := Stepwise d v allow l r in
  (lt cmp x d0 -> stepwise_interpolate cmp s x = Ret (outside_answer allow l v0)) /\
  (lt cmp d9 x -> stepwise_interpolate cmp s x = Ret (outside_answer allow r v9)) /\
  (le cmp d0 x -> le cmp x d9 -> exists i y, interval cmp d x i /\ nth_error v i = Some y /\ stepwise_interpolate cmp s x = Ret (ROk y)).
Proof.
  intros T V cmp P d v allow l r x d0 d9 v0 v9 O PD Px SS L H0 H9 V0 V9 s. pose proof (P_at P d PD _ _ H0) as P0. pose proof (P_at P d PD _ _ H9) as P9.
  assert (N : d <> []) by (intros ->; discriminate H0). assert (G : 0 < length d) by (destruct d; [congruence|cbn; lia]).
  assert (LE : le cmp d0 d9) by (apply (below cmp P O d PD (strict_sorted cmp d SS) 0 (length d - 1)); [lia|exact H0|exact H9]).
  unfold stepwise_interpolate, outside_answer. cbn [s s_domain s_value s_allow s_left s_right].
  rewrite (at_some _ _ _ _ H0), (at_some _ _ _ _ H9), (at_some _ _ _ _ V0), (at_some _ _ _ _ V9). cbn [obind].
  split; [|split].
  - intro C. apply o_lt_iff in C. rewrite C. destruct allow, l; reflexivity.
  - intro C. assert (F : o_lt cmp x d0 = false).
    { apply not_true_is_false. rewrite o_lt_iff. intro Q. apply (proj1 (lt_not_le cmp P O d9 x P9 Px) C). apply (le_trans' cmp P O x d0 d9); try assumption. apply lt_le. exact Q. }
    rewrite F, (proj2 (o_gt_iff cmp P O x d9 Px P9) C). destruct allow, r; reflexivity.
  - intros A B. assert (F : o_lt cmp x d0 = false).
    { apply not_true_is_false. rewrite o_lt_iff. intro Q. exact (proj1 (lt_not_le cmp P O x d0 Px P0) Q A). }
    assert (F' : o_gt cmp x d9 = false).
    { apply not_true_is_false. rewrite (o_gt_iff cmp P O x d9 Px P9). intro Q. exact (proj1 (lt_not_le cmp P O d9 x P9 Px) Q B). }
    rewrite F, F'. destruct (bs_total cmp d x N) as (i & E & Li). rewrite E. cbn [obind]. destruct (at_lt _ v i ltac:(lia)) as (y & Hy & ->). cbn [obind].
    exists i, y. split; [|auto]. apply (place_interval cmp P O d x i d0 d9); try assumption; [apply strict_sorted; exact SS|].
    apply (bs_place cmp P O); try assumption. apply strict_sorted. exact SS.
Qed.
(** the interval is unique: at most one answer fits *)
Theorem c111_unique : forall T (cmp : T -> T -> option comparison) P d x i j, total_order cmp P -> Forall P d -> P x -> strictly_sorted cmp d ->
  interval cmp d x i -> interval cmp d x j -> i = j.
Proof.
  intros T cmp P d x i j O PD Px SS (a & Ha & A1 & A2) (b & Hb & B1 & B2).
  assert (G : forall i j a b, nth_error d i = Some a -> (forall c, nth_error d (i + 1) = Some c -> lt cmp x c) -> nth_error d j = Some b -> le cmp b x -> j <= i).
  { intros i0 j0 a0 b0 H1 H2 H3 H4. destruct (Nat.le_gt_cases j0 i0) as [|Q]; [assumption|exfalso].
    assert (j0 < length d) by (apply nth_error_Some; congruence).
    destruct (at_lt _ d (i0 + 1) ltac:(lia)) as (c & Hc & _). specialize (H2 c Hc).
    pose proof (P_at P d PD _ _ Hc) as Pc. pose proof (P_at P d PD _ _ H3) as Pb.
    apply (proj1 (lt_not_le cmp P O x c Px Pc) H2). apply (le_trans' cmp P O c b0 x); try assumption.
    apply (below cmp P O d PD (strict_sorted cmp d SS) (i0 + 1) j0); [lia|exact Hc|exact H3]. }
  pose proof (G i j a b Ha A2 Hb B1). pose proof (G j i b a Hb B2 Ha A1). lia.
Qed.
(** at a knot: the value given for it *)
Theorem c111_knot : forall T V (cmp : T -> T -> option comparison) P d (v : list V) allow l r i x y, total_order cmp P -> Forall P d -> 
  strictly_sorted cmp d -> length d = length v -> nth_error d i = Some x -> nth_error v i = Some y ->
  stepwise_interpolate cmp (Stepwise d v allow l r) x = Ret (ROk y).
Proof.
  intros T V cmp P d v allow l r i x y O PD SS L Hx Hy. pose proof (P_at P d PD _ _ Hx) as Px.
  assert (Li : i < length d) by (apply nth_error_Some; congruence).
  destruct (at_lt _ d 0 ltac:(lia)) as (d0 & H0 & _). destruct (at_lt _ d (length d - 1) ltac:(lia)) as (d9 & H9 & _).
  destruct (at_lt _ v 0 ltac:(lia)) as (v0 & V0 & _). destruct (at_lt _ v (length d - 1) ltac:(lia)) as (v9 & V9 & _).
  destruct (c111_value T V cmp P d v allow l r x d0 d9 v0 v9 O PD Px SS L H0 H9 V0 V9) as (_ & _ & M).
  assert (SV := strict_sorted cmp d SS).
  destruct M as (j & z & I & Hz & E); [apply (below cmp P O d PD SV 0 i); [lia|exact H0|exact Hx]|apply (below cmp P O d PD SV i (length d - 1)); [lia|exact Hx|exact H9]|].
  rewrite E. assert (j = i); [|congruence].
  apply (c111_unique T cmp P d x); try assumption. exists x. split; [exact Hx|]. split; [apply (le_refl' cmp P O); exact Px|].
  intros b Hb. apply (SS i (i + 1)); [lia|exact Hx|exact Hb].
Qed.
(** a constant interpolator *)
Theorem c111_constant : forall T V (value : V) (x : T), constant_interpolate value x = ROk value.
Proof. reflexivity. Qed.
Example c111_hypotheses_met : strictly_sorted z_cmp knots /\
  map (stepwise_interpolate z_cmp (Stepwise knots [10; 20; 30; 40; 50] true (Some 1) None)) [0; 1; 5; 6; 11; 12]%Z
    = [Ret (ROk 1); Ret (ROk 10); Ret (ROk 20); Ret (ROk 30); Ret (ROk 50); Ret (ROk 50)] /\
  stepwise_interpolate z_cmp (Stepwise knots [10; 20; 30; 40; 50] false (Some 1) None) 12%Z = Ret RErr.
Proof. split; [exact knots_sorted|]. split; reflexivity. Qed.

(** ** C112: many points *)
(** sorted points: what the points give one by one, an error at the first
    point that gives one; if the points are more than two and extrapolation is
    allowed, a point outside must be on a side without an extrapolation value *)
Theorem c112_same : forall T V (cmp : T -> T -> option comparison) P d (v : list V) allow l r xs d0 d9, total_order cmp P -> Forall P d -> Forall P xs ->
  strictly_sorted cmp d -> length d = length v -> sorted cmp xs -> nth_error d 0 = Some d0 -> nth_error d (length d - 1) = Some d9 ->
  length xs <= 2 \/ allow = false \/ ((l = None \/ Forall (fun x => le cmp d0 x) xs) /\ (r = None \/ Forall (fun x => le cmp x d9) xs)) ->
  let s := Stepwise d v allow l r in
  exists a, stepwise_vectorized cmp s xs = Ret a /\ pointwise (stepwise_interpolate cmp s) xs a.
Proof.
  intros T V cmp P d v allow l r xs d0 d9 O PD PX SS L SX H0 H9 C s.
  assert (N : d <> []) by (intros ->; discriminate H0). assert (G : 0 < length d) by (destruct d; [congruence|cbn; lia]).
  assert (SV := strict_sorted cmp d SS).
  assert (B : built cmp s).
  { exists d, v, allow, l, r. apply (c110_sorted T cmp P V d v allow l r O PD). auto. }
  unfold stepwise_vectorized. destruct (Nat.leb_spec (length xs) 2) as [L2|L2].
  - destruct (map_res_total _ _ (stepwise_interpolate cmp s) xs) as (a & E); [intros x _; apply c111_answers; exact B|].
    exists a. split; [exact E|]. apply map_res_pointwise. exact E.
  - destruct C as [C|C]; [lia|].
    destruct (c109_same T cmp P d xs O PD PX N SS SX) as (rs & E & _ & F).
    cbn [s s_domain s_value s_allow]. rewrite E, (at_some _ _ _ _ H0), (at_some _ _ _ _ H9). cbn [obind].
    apply map_res2_pointwise with (Q := place cmp d); [exact F|]. intros x i Hx PL. split; [|apply c111_answers; exact B].
    assert (Px : P x) by (rewrite Forall_forall in PX; auto). pose proof (P_at P d PD _ _ H0) as P0. pose proof (P_at P d PD _ _ H9) as P9.
    assert (LE : le cmp d0 d9) by (apply (below cmp P O d PD SV 0 (length d - 1)); [lia|exact H0|exact H9]).
    destruct (at_lt _ v 0 ltac:(lia)) as (v0 & V0 & A0). destruct (at_lt _ v (length d - 1) ltac:(lia)) as (v9 & V9 & A9).
    destruct (c111_value T V cmp P d v allow l r x d0 d9 v0 v9 O PD Px SS L H0 H9 V0 V9) as (M1 & M2 & M3).
    pose proof PL as (Li & F1 & F2 & F3).
    destruct (le_or_lt cmp P O d0 x P0 Px) as [Q0|Q0].
    + assert (F0 : o_lt cmp x d0 = false).
      { apply not_true_is_false. rewrite o_lt_iff. intro Q. exact (proj1 (lt_not_le cmp P O x d0 Px P0) Q Q0). }
      destruct (le_or_lt cmp P O x d9 Px P9) as [Q9|Q9].
      * assert (F9 : o_gt cmp x d9 = false).
        { apply not_true_is_false. rewrite (o_gt_iff cmp P O x d9 Px P9). intro Q. exact (proj1 (lt_not_le cmp P O d9 x P9 Px) Q Q9). }
        rewrite F0, F9. cbn [orb]. rewrite andb_false_r. destruct (M3 Q0 Q9) as (j & y & I & Hy & E'). fold s in E'. rewrite E'.
        assert (i = j).
        { apply (c111_unique T cmp P d x); try assumption. apply (place_interval cmp P O d x i d0 d9); assumption. }
        subst j. rewrite (at_some _ _ _ _ Hy). reflexivity.
      * rewrite (proj2 (o_gt_iff cmp P O x d9 Px P9) Q9), orb_true_r. fold s in M2. rewrite (M2 Q9). unfold outside_answer.
        destruct allow; cbn [negb andb]; [|reflexivity]. rewrite (F2 d9 H9 (lt_le cmp _ _ Q9)), A9. cbn [obind].
        destruct C as [C|[_ [C|C]]]; [discriminate C|rewrite C; reflexivity|]. exfalso. rewrite Forall_forall in C.
        exact (proj1 (lt_not_le cmp P O d9 x P9 Px) Q9 (C x Hx)).
    + rewrite (proj2 (o_lt_iff cmp x d0) Q0). cbn [orb]. rewrite andb_true_r. fold s in M1. rewrite (M1 Q0). unfold outside_answer.
      destruct allow; cbn [negb]; [|reflexivity]. rewrite (F1 d0 H0 Q0), A0. cbn [obind].
      destruct C as [C|[[C|C] _]]; [discriminate C|rewrite C; reflexivity|]. exfalso. rewrite Forall_forall in C.
      exact (proj1 (lt_not_le cmp P O x d0 Px P0) Q0 (C x Hx)).
Qed.
Theorem c112_constant : forall T V (value : V) (xs : list T), pointwise (fun x => Ret (constant_interpolate value x)) xs (constant_vectorized value xs).
Proof. intros T V value xs. cbn. induction xs as [|x xs IH]; cbn; constructor; auto. Qed.
(** any constructed interpolator, any points: no panic *)
Theorem c112_answers : forall T V (cmp : T -> T -> option comparison) (s : stepwise T V) xs, built cmp s -> exists a, stepwise_vectorized cmp s xs = Ret a.
Proof.
  intros T V cmp s xs B. destruct (built_shape cmp s B) as (L & N & G & _). unfold stepwise_vectorized.
  destruct (length xs <=? 2); [apply map_res_total; intros x _; apply c111_answers; exact B|].
  destruct (c109_answers T cmp (s_domain s) xs N) as (rs & -> & LR & F). cbn [obind].
  destruct (at_lt _ (s_domain s) 0 G) as (d0 & _ & ->). destruct (at_lt _ (s_domain s) (length (s_domain s) - 1) ltac:(lia)) as (d9 & _ & ->). cbn [obind].
  clear LR. revert xs. induction F as [|r rs Hr F IH]; intros [|x xs]; cbn [map_res2]; eauto.
  destruct (at_lt _ (s_value s) r ltac:(lia)) as (y & _ & ->). cbn [obind].
  destruct (negb (s_allow s) && (o_lt cmp x d0 || o_gt cmp x d9)); cbn [rbind]; [eauto|]. destruct (IH xs) as ([ys|] & ->); cbn [rbind]; eauto.
Qed.
Example c112_hypotheses_met : sorted z_cmp [0; 0; 5; 9; 20]%Z /\
  stepwise_vectorized z_cmp (Stepwise knots [10; 20; 30; 40; 50] true None None) [0; 0; 5; 9; 20]%Z = Ret (ROk [10; 10; 20; 40; 50]).
Proof. split; [apply c109_hypotheses_met|reflexivity]. Qed.
(** REFUTED with extrapolation values: three points or more ignore them *)
Theorem c112_extrapolation_refuted :
  let s := Stepwise knots [10; 20; 30; 40; 50] true (Some 1) (Some 99) in
  map (stepwise_interpolate z_cmp s) [0; 5; 20]%Z = [Ret (ROk 1); Ret (ROk 20); Ret (ROk 99)] /\
  stepwise_vectorized z_cmp s [0; 5; 20]%Z = Ret (ROk [10; 20; 50]) /\ stepwise_vectorized z_cmp s [0; 20]%Z = Ret (ROk [1; 99]).
Proof. split; [reflexivity|]. split; reflexivity. Qed.
Print Assumptions c108_floats.
Print Assumptions c110_new.
Print Assumptions c110_sorted.
Print Assumptions c111_answers.
Print Assumptions c111_value.
Print Assumptions c111_unique.
Print Assumptions c111_knot.
Print Assumptions c111_constant.
Print Assumptions c112_same.
Print Assumptions c112_constant.
Print Assumptions c112_answers.
Print Assumptions c112_extrapolation_refuted.
