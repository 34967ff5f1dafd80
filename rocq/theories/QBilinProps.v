(** QBilinProps.v -- bilinear interpolation: the properties (C118-C120). *)
From Coq Require Import ZArith Arith List Bool Lia Reals Lra.
From Flocq Require Import Core IEEE754.BinarySingleNaN.
From Verif Require Import Base FloatModel FloatFacts KrxModel QFindModel QFindSpec QFindProofs QFindProps QInterpModel QInterpSpec QInterpProofs QFloatErr QLinProofs QLinProps.
Import ListNotations.
Open Scope nat_scope.

Lemma F2_length : forall A B (R : A -> B -> Prop) l m, Forall2 R l m -> length l = length m.
Proof. intros A B R l m H. induction H as [|x y l m H F IH]; cbn; congruence. Qed.

(** ** C118: construction, and an answer for every point *)
Definition not_decreasing (d : list f32) : Prop := forall i a b, nth_error d i = Some a -> nth_error d (i + 1) = Some b -> fcmp a b <> Some Gt.
Definition decreasing_somewhere (d : list f32) : Prop := exists i a b, nth_error d i = Some a /\ nth_error d (i + 1) = Some b /\ fcmp a b = Some Gt.
Lemma sorted_dec : forall x d, (sorted_from fcmp x d = true /\ not_decreasing (x :: d)) \/ (sorted_from fcmp x d = false /\ decreasing_somewhere (x :: d)).
Proof.
  intros x d. destruct (linear_new_cases (x :: d) (x :: d) XFlat true) as [(A & E)|[(A & B & E)|[(A & B & C & E)|(A & B & C & E)]]].
  - congruence.
  - congruence.
  - right. split; [|exact C]. unfold linear_new in E. rewrite Nat.eqb_refl in E. cbn [negb is_ndarray_sorted obind] in E. destruct (sorted_from fcmp x d); [discriminate E|reflexivity].
  - left. split; [|exact C]. apply sorted_from_iff. exact C.
Qed.
Theorem c118_new : forall t xs allow extra,
  (length t <> length xs -> bilinear_new t xs allow extra = Ret RErr) /\
  (length t = length xs -> t <> [] -> decreasing_somewhere t -> bilinear_new t xs allow extra = Ret RErr) /\
  (length t = length xs -> t <> [] -> not_decreasing t -> bilinear_new t xs allow extra = Ret (ROk (Bilinear t xs allow extra))).
Proof.
  intros t xs allow extra. unfold bilinear_new. destruct (Nat.eqb_spec (length t) (length xs)) as [L|L]; cbn [negb].
  - split; [congruence|]. destruct t as [|x t]; [split; congruence|]. cbn [is_ndarray_sorted obind].
    destruct (sorted_dec x t) as [[-> S]|[-> (i & a & b & Ha & Hb & S)]].
    + split; [|reflexivity]. intros _ _ (i & a & b & Ha & Hb & C). exfalso. exact (S i a b Ha Hb C).
    + split; [reflexivity|]. intros _ _ C. exfalso. exact (C i a b Ha Hb S).
  - split; [reflexivity|]. split; congruence.
Qed.
(** REFUTED: no knots at all is a panic *)
Theorem c118_empty_refuted : forall allow extra, bilinear_new [] [] allow extra = Panic.
Proof. reflexivity. Qed.
(** the table of values: rows of one length *)
Lemma map_res_rows : forall x rows extra allow, x <> [] -> Forall (fun r => length r = length x) rows ->
  (not_decreasing x /\ exists ls, map_res (fun row => linear_new x row extra allow) rows = Ret (ROk ls) /\ Forall2 (fun row l => linear_new x row extra allow = Ret (ROk l)) rows ls) \/
  (decreasing_somewhere x /\ (rows = [] \/ map_res (fun row => linear_new x row extra allow) rows = Ret RErr)).
Proof.
  intros x rows extra allow N F. destruct x as [|x0 x]; [congruence|]. destruct (sorted_dec x0 x) as [[E S]|[E S]].
  - left. split; [exact S|]. induction F as [|row rows Lr F IH]; cbn [map_res]; [eexists; split; [reflexivity|constructor]|].
    assert (EL : linear_new (x0 :: x) row extra allow = Ret (ROk (Linear (x0 :: x) row (slopes (x0 :: x) row) extra allow))).
    { unfold linear_new. rewrite Lr, Nat.eqb_refl. cbn [negb is_ndarray_sorted obind]. rewrite E. reflexivity. }
    rewrite EL. cbn [rbind]. destruct IH as (ls & -> & F2). cbn [rbind]. eexists. split; [reflexivity|]. constructor; [exact EL|exact F2].
  - right. split; [exact S|]. destruct F as [|row rows Lr F]; [auto|]. right. cbn [map_res].
    assert (EL : linear_new (x0 :: x) row extra allow = Ret RErr).
    { unfold linear_new. rewrite Lr, Nat.eqb_refl. cbn [negb is_ndarray_sorted obind]. rewrite E. reflexivity. }
    rewrite EL. reflexivity.
Qed.
Theorem c118_rect : forall t x rows cols xa xe ta te, Forall (fun r => length r = cols) rows ->
  (length t < 2 \/ length x < 2 \/ length t <> length rows \/ length x <> cols \/ decreasing_somewhere x -> bilinear_rect t x rows cols xa xe ta te = Ret RErr) /\
  (2 <= length t -> 2 <= length x -> length t = length rows -> length x = cols -> not_decreasing x ->
     exists ls, bilinear_rect t x rows cols xa xe ta te = Ret (ROk (Bilinear t ls ta te)) /\ Forall2 (fun row l => linear_new x row xe xa = Ret (ROk l)) rows ls).
Proof.
  intros t x rows cols xa xe ta te F. unfold bilinear_rect.
  destruct (Nat.ltb_spec (length t) 2) as [A|A]; cbn [orb]; [split; [reflexivity|lia]|].
  destruct (Nat.ltb_spec (length x) 2) as [B|B]; [split; [reflexivity|lia]|].
  destruct (Nat.eqb_spec (length t) (length rows)) as [C|C]; cbn [negb]; [|split; [reflexivity|lia]].
  destruct (Nat.eqb_spec (length x) cols) as [D|D]; cbn [negb]; [|split; [reflexivity|lia]]. subst cols.
  assert (N : x <> []) by (intros E; rewrite E in B; cbn in B; lia).
  destruct (map_res_rows x rows xe xa N F) as [[S (ls & E & F2)]|[(i & a & b & Ha & Hb & S) [E|E]]].
  - rewrite E. cbn [rbind]. split; [|intros; eauto]. intros [Q|[Q|[Q|[Q|(i & a & b & Ha & Hb & Q)]]]]; try lia. exfalso. exact (S i a b Ha Hb Q).
  - rewrite E in C. cbn in C. lia.
  - rewrite E. cbn [rbind]. split; [reflexivity|]. intros _ _ _ _ Q. exfalso. exact (Q i a b Ha Hb S).
Qed.
(** REFUTED: the table constructor does not check that the t knots are sorted *)
Theorem c118_unsorted_refuted : decreasing_somewhere [gof_Z 1; gof_Z 0] /\
  exists b, bilinear_rect [gof_Z 1; gof_Z 0] [gof_Z 0; gof_Z 1] [[gof_Z 1; gof_Z 2]; [gof_Z 3; gof_Z 4]] 2 true XFlat true XFlat = Ret (ROk b).
Proof. split; [exists 0, (gof_Z 1), (gof_Z 0); split; [reflexivity|]; split; [reflexivity|vm_compute; reflexivity]|]. eexists. reflexivity. Qed.
(** any table, any t and x (NaN included): an answer, not a panic *)
Theorem c118_answers : forall t x rows cols xa xe ta te b p q, Forall (fun r => length r = cols) rows -> bilinear_rect t x rows cols xa xe ta te = Ret (ROk b) ->
  exists r, bilinear_interpolate b p q = Ret r.
Proof.
  intros t x rows cols xa xe ta te b p q F E. destruct (c118_rect t x rows cols xa xe ta te F) as [R1 R2].
  destruct (Nat.lt_ge_cases (length t) 2) as [A|A]; [rewrite R1 in E by auto; discriminate E|].
  destruct (Nat.lt_ge_cases (length x) 2) as [B|B]; [rewrite R1 in E by auto; discriminate E|].
  destruct (Nat.eq_dec (length t) (length rows)) as [C|C]; [|rewrite R1 in E by auto; discriminate E].
  destruct (Nat.eq_dec (length x) cols) as [D|D]; [|rewrite R1 in E by auto; discriminate E].
  destruct x as [|x0 x]; [cbn in B; lia|]. destruct (sorted_dec x0 x) as [[_ S]|[_ S]]; [|rewrite R1 in E by auto; discriminate E].
  destruct (R2 A B C D S) as (ls & E' & F2). rewrite E in E'. injection E' as ->.
  assert (LL : length ls = length t) by (rewrite C; symmetry; exact (F2_length _ _ _ _ _ F2)).
  assert (IN : forall i, i < length t -> exists r, (let! l := at_ ls i in linear_interpolate l q) = Ret r).
  { intros i Hi. destruct (at_lt _ ls i ltac:(lia)) as (l & Hl & ->). cbn [obind].
    assert (Q : exists row, linear_new (x0 :: x) row xe xa = Ret (ROk l)).
    { clear - F2 Hl. revert i Hl. induction F2 as [|row l0 rows ls H F2 IH]; intros i Hl; [destruct i; discriminate Hl|].
      destruct i as [|i]; [|exact (IH i Hl)]. exists row. cbn in Hl. congruence. }
    destruct Q as (row & Q). exact (c113_answers (x0 :: x) row xe xa l q Q B). }
  assert (N : t <> []) by (intros Q; rewrite Q in A; cbn in A; lia).
  destruct (at_lt _ t 0 ltac:(lia)) as (t0 & T0 & A0). destruct (at_lt _ t 1 ltac:(lia)) as (t1 & T1 & A1).
  destruct (at_lt _ t (length t - 1) ltac:(lia)) as (t9 & T9 & A9). destruct (at_lt _ t (length t - 2) ltac:(lia)) as (t8 & T8 & A8).
  unfold bilinear_interpolate. cbn [b_t b_x b_allow b_extra]. rewrite A0. cbn [obind]. destruct (o_lt fcmp p t0).
  - destruct ta; [|eauto]. destruct te; [eauto|apply IN; lia|].
    destruct (IN 0 ltac:(lia)) as ([r1|] & ->); cbn [rbind]; [|eauto]. destruct (IN 1 ltac:(lia)) as ([r2|] & ->); cbn [rbind]; [|eauto]. rewrite A1. cbn. eauto.
  - unfold minus_. destruct (Nat.leb_spec 1 (length t)); [|lia]. destruct (Nat.leb_spec 2 (length t)); [|lia]. cbn [obind]. rewrite A9. cbn [obind].
    destruct (o_ge fcmp p t9) eqn:G9.
    + destruct ta; [|eauto]. destruct te; [eauto|apply IN; lia|].
      destruct (IN (length t - 1) ltac:(lia)) as ([r1|] & ->); cbn [rbind]; [|eauto]. destruct (IN (length t - 2) ltac:(lia)) as ([r2|] & ->); cbn [rbind]; [|eauto]. rewrite A8. cbn. eauto.
    + destruct (bs_total fcmp t p N) as (i & Ei & Li). rewrite Ei. cbn [obind]. pose proof (inside_next t p t9 i A T9 G9 Ei) as NI.
      destruct (at_lt _ t i Li) as (ti & _ & ->). destruct (at_lt _ t (i + 1) NI) as (tj & _ & ->). cbn [obind].
      destruct (IN i ltac:(lia)) as ([r1|] & ->); cbn [rbind]; [|eauto]. destruct (IN (i + 1) ltac:(lia)) as ([r2|] & ->); cbn [rbind]; eauto.
Qed.
Definition ex_t : list f32 := [gof_Z 0; gof_Z 1; gof_Z 2].
Definition ex_rows : list (list f32) := [[gof_Z 0; gof_Z 1; gof_Z 2]; [gof_Z 1; gof_Z 2; gof_Z 3]; [gof_Z 2; gof_Z 3; gof_Z 4]].
Definition ex_b : outcome (rresult bilinear) := bilinear_rect ex_t ex_d ex_rows 3 true XFlat true XFlat.
Definition bgives (b : outcome (rresult bilinear)) (t x y : f32) : bool :=
  match b with Ret (ROk b) => match bilinear_interpolate b t x with Ret (ROk z) => geq z y | _ => false end | _ => false end.
(** the table of the repository's test: (1/2, 1/2) gives 1 *)
Example c118_hypotheses_met : Forall (fun r => length r = 3) ex_rows /\ not_decreasing ex_d /\ bgives ex_b half half (gof_Z 1) = true.
Proof.
  split; [repeat constructor|]. split; [|vm_compute; reflexivity]. destruct (sorted_dec (gof_Z 0) [gof_Z 1; gof_Z 2]) as [[_ S]|[E _]]; [exact S|].
  exfalso. vm_compute in E. discriminate E.
Qed.

(** ** C119: inside the table: close to the bilinear form *)
Definition bilinear_form (t1 t2 a b u00 u01 u10 u11 t x : R) : R := straight t1 t2 (straight a b u00 u01 x) (straight a b u10 u11 x) t.
Theorem c119_accurate : forall t d rows xa xe ta te M bi p q t0 t9 d0 d9,
  Forall (fun r => gentle d r M) rows -> Forall finite t -> strictly_sorted fcmp t -> length t = length rows -> 2 <= length t -> 2 <= length d ->
  (M <= 2 ^ 50)%R ->
  (forall i a b, nth_error t i = Some a -> nth_error t (i + 1) = Some b -> / 2 ^ 100 <= real_of b - real_of a <= 2 ^ 40)%R ->
  bilinear_rect t d rows (length d) xa xe ta te = Ret (ROk bi) -> finite p -> finite q ->
  nth_error t 0 = Some t0 -> nth_error t (length t - 1) = Some t9 -> nth_error d 0 = Some d0 -> nth_error d (length d - 1) = Some d9 ->
  (real_of t0 <= real_of p < real_of t9)%R -> (real_of d0 <= real_of q < real_of d9)%R ->
  exists i j t1 t2 a b r1 r2 u00 u01 u10 u11 y,
    nth_error t i = Some t1 /\ nth_error t (i + 1) = Some t2 /\ nth_error d j = Some a /\ nth_error d (j + 1) = Some b /\
    nth_error rows i = Some r1 /\ nth_error rows (i + 1) = Some r2 /\
    nth_error r1 j = Some u00 /\ nth_error r1 (j + 1) = Some u01 /\ nth_error r2 j = Some u10 /\ nth_error r2 (j + 1) = Some u11 /\
    (real_of t1 <= real_of p < real_of t2)%R /\ (real_of a <= real_of q < real_of b)%R /\
    bilinear_interpolate bi p q = Ret (ROk y) /\ finite y /\
    (Rabs (real_of y - bilinear_form (real_of t1) (real_of t2) (real_of a) (real_of b) (real_of u00) (real_of u01) (real_of u10) (real_of u11) (real_of p) (real_of q))
      <= 25 * / 2 ^ 24 * M + / 2 ^ 148 * (1 + (real_of b - real_of a)) + / 2 ^ 149 * (1 + / (real_of t2 - real_of t1)))%R.
Proof.
  intros t d rows xa xe ta te M bi p q t0 t9 d0 d9 FG Ft St Lt L2 D2 HM GT E Fp Fq T0 T9 H0 H9 P Q.
  assert (FR : Forall (fun r => length r = length d) rows) by (eapply Forall_impl; [|exact FG]; intros r (L & _); congruence).
  destruct (c118_rect t d rows (length d) xa xe ta te FR) as [R1 R2].
  destruct d as [|dx d']; [cbn in D2; lia|]. set (d := dx :: d') in *. destruct (sorted_dec dx d') as [[_ S]|[_ S]]; [|rewrite R1 in E by auto; discriminate E]. fold d in S.
  destruct (R2 L2 D2 Lt eq_refl S) as (ls & E' & F2). rewrite E in E'. injection E' as ->. clear R1 R2 E.
  assert (LL : length ls = length t) by (rewrite Lt; symmetry; exact (F2_length _ _ _ _ _ F2)).
  pose proof (finite_numbers t Ft) as Nt. pose proof (finite_number p Fp) as Np. pose proof (strict_sorted fcmp t St) as SVt.
  assert (Ft0 : finite t0) by (rewrite Forall_forall in Ft; eauto using nth_error_In). assert (Ft9 : finite t9) by (rewrite Forall_forall in Ft; eauto using nth_error_In).
  assert (G0 : le fcmp t0 p) by (apply fle_finite; [assumption|assumption|apply P]). assert (G9 : lt fcmp p t9) by (apply flt_finite; [assumption|assumption|apply P]).
  assert (N : t <> []) by (intros ->; cbn in L2; lia).
  destruct (bs_total fcmp t p N) as (i & Ei & Li). pose proof (bs_place fcmp number f_order t p Nt Np SVt St i Ei) as (_ & _ & _ & PL).
  destruct (PL t0 t9 T0 T9 G0 G9) as (t1 & t2 & T1 & T2 & LA & LB). assert (Li1 : i + 1 < length t) by (apply nth_error_Some; congruence).
  assert (Ft1 : finite t1) by (rewrite Forall_forall in Ft; eauto using nth_error_In). assert (Ft2 : finite t2) by (rewrite Forall_forall in Ft; eauto using nth_error_In).
  apply fle_finite in LA; try assumption. apply flt_finite in LB; try assumption.
  (* the rows *)
  assert (ROW : forall k, k < length t -> exists r l, nth_error rows k = Some r /\ nth_error ls k = Some l /\ linear_new d r xe xa = Ret (ROk l) /\ gentle d r M).
  { intros k Hk. destruct (at_lt _ ls k ltac:(lia)) as (l & Hl & _). destruct (at_lt _ rows k ltac:(lia)) as (r & Hr & _). exists r, l. split; [exact Hr|]. split; [exact Hl|].
    split; [|rewrite Forall_forall in FG; eauto using nth_error_In]. clear - F2 Hl Hr. revert k Hl Hr.
    induction F2 as [|r0 l0 rows ls H F2 IH]; intros k Hl Hr; [destruct k; discriminate Hl|]. destruct k as [|k]; [cbn in Hl, Hr; congruence|exact (IH k Hl Hr)]. }
  destruct (ROW i ltac:(lia)) as (r1 & l1 & R1 & L1 & E1 & GE1). destruct (ROW (i + 1) Li1) as (r2 & l2 & R2 & LL2 & E2 & GE2).
  destruct (c114_accurate d r1 xe xa M l1 q d0 d9 GE1 E1 Fq H0 H9 Q) as (j & a & b & u00 & u01 & v1 & Ha & Hb & U00 & U01 & QI & V1 & FV1 & B1).
  destruct (c114_accurate d r2 xe xa M l2 q d0 d9 GE2 E2 Fq H0 H9 Q) as (j' & a' & b' & u10 & u11 & v2 & Ha' & Hb' & U10 & U11 & QI' & V2 & FV2 & B2).
  pose proof GE1 as (Ld & FD & SD & FV & HM' & GG). pose proof (strict_sorted fcmp d SD) as SVd. pose proof (finite_numbers d FD) as ND.
  assert (FI : forall k z, nth_error d k = Some z -> finite z) by (intros k z Hz; rewrite Forall_forall in FD; eauto using nth_error_In).
  assert (j' = j).
  { assert (LE : forall k1 k2 z1 w1 z2, nth_error d k1 = Some z1 -> nth_error d (k1 + 1) = Some w1 -> nth_error d k2 = Some z2 -> (real_of q < real_of w1)%R -> (real_of z2 <= real_of q)%R -> k2 <= k1).
    { intros k1 k2 z1 w1 z2 K1 K2 K3 C1 C2. destruct (Nat.le_gt_cases k2 k1) as [|GK]; [assumption|exfalso].
      pose proof (below fcmp number f_order d ND SVd (k1 + 1) k2 w1 z2 ltac:(lia) K2 K3) as C3. apply fle_finite in C3; [|exact (FI _ _ K2)|exact (FI _ _ K3)]. unfold real_of in *. lra. }
    destruct QI as [QI1 QI2]. destruct QI' as [QI1' QI2'].
    pose proof (LE j j' a b a' Ha Hb Ha' QI2 QI1'). pose proof (LE j' j a' b' a Ha' Hb' Ha QI2' QI1). lia. }
  subst j'. assert (a' = a) by congruence. assert (b' = b) by congruence. subst a' b'.
  (* sizes *)
  destruct (GT i t1 t2 T1 T2) as [GT1 GT2]. destruct (GG j a b u00 u01 Ha Hb U00 U01) as [GB _].
  assert (P50 : (2 ^ 50 = IZR (2 ^ 50))%R) by (rewrite pow_IZR; reflexivity). assert (P40 : (2 ^ 40 = IZR (2 ^ 40))%R) by (rewrite pow_IZR; reflexivity).
  assert (M0 : (0 <= M)%R) by (rewrite Forall_forall in FV; destruct (FV u00 (nth_error_In _ _ U00)) as [_ X]; apply Rle_trans with (2 := X); apply Rabs_pos).
  assert (AB : (real_of a < real_of b)%R) by lra. assert (T12 : (real_of t1 < real_of t2)%R) by (unfold real_of in *; lra).
  set (s := (/ 2 ^ 149 * (1 + (real_of b - real_of a)))%R) in *. set (Er := (12 * / 2 ^ 24 * M + s)%R) in *.
  assert (TN : (/ 2 ^ 149 = 2 * tiny)%R).
  { unfold tiny. change 2%R with (bpow radix2 1) at 2. rewrite <- bpow_plus. change (1 + -150)%Z with (Z.opp (Z.of_nat 149)). rewrite bpow_opp. rewrite <- IZR_Zpower_nat. rewrite pow_IZR. reflexivity. }
  assert (E24 : (/ 2 ^ 24 = e24)%R) by (unfold e24; f_equal; lra).
  assert (S1 : (0 <= s <= 1)%R).
  { unfold s. rewrite TN. pose proof tiny_pos. split; [apply Rmult_le_pos; lra|]. rewrite p100 in GB.
    apply Rle_trans with (2 * tiny * (2 * two100))%R; [apply Rmult_le_compat_l; [lra|]; pose proof two100_pos; lra|].
    unfold tiny, two100. change (IZR (2 ^ 100)) with (IZR (Zpower (radix_val radix2) 100)). rewrite IZR_Zpower by lia.
    replace (2 * bpow radix2 (-150) * (2 * bpow radix2 100))%R with (4 * (bpow radix2 (-150) * bpow radix2 100))%R by ring. rewrite <- bpow_plus.
    apply Rle_trans with (4 * bpow radix2 (-2))%R; [apply Rmult_le_compat_l; [lra|apply bpow_le; lia]|]. change (bpow radix2 (-2)) with (/ 4)%R. lra. }
  assert (ER1 : (0 <= Er <= M + 1)%R).
  { unfold Er. rewrite E24. unfold e24. lra. }
  pose proof (chord_bounds (real_of a) (real_of b) (real_of u00) (real_of u01) (real_of q) M AB ltac:(lra)) as C1.
  pose proof (chord_bounds (real_of a) (real_of b) (real_of u10) (real_of u11) (real_of q) M AB ltac:(lra)) as C2.
  assert (FVr : forall r u k, gentle d r M -> nth_error r k = Some u -> (Rabs (real_of u) <= M)%R).
  { intros r u k (_ & _ & _ & X & _) Hu. rewrite Forall_forall in X. exact (proj2 (X u (nth_error_In _ _ Hu))). }
  specialize (C1 (FVr _ _ _ GE1 U00) (FVr _ _ _ GE1 U01)). specialize (C2 (FVr _ _ _ GE2 U10) (FVr _ _ _ GE2 U11)).
  set (W1 := straight (real_of a) (real_of b) (real_of u00) (real_of u01) (real_of q)) in *. set (W2 := straight (real_of a) (real_of b) (real_of u10) (real_of u11) (real_of q)) in *.
  change (Rabs W1 <= M)%R in C1. change (Rabs W2 <= M)%R in C2.
  assert (BV1 : (Rabs (real_of v1) <= M + Er)%R).
  { replace (real_of v1) with (W1 + (real_of v1 - W1))%R by ring. apply Rle_trans with (1 := Rabs_triang _ _). lra. }
  assert (BV2 : (Rabs (real_of v2) <= M + Er)%R).
  { replace (real_of v2) with (W2 + (real_of v2 - W2))%R by ring. apply Rle_trans with (1 := Rabs_triang _ _). lra. }
  assert (ME : (M + Er <= IZR (2 ^ 52))%R) by (change (IZR (2 ^ 52)) with 4503599627370496%R; change (IZR (2 ^ 50)) with 1125899906842624%R in P50; lra).
  assert (X1 : (M + Er <= two100)%R) by (apply Rle_trans with (1 := ME); unfold two100; apply IZR_le; apply Z.leb_le; reflexivity).
  assert (X2 : ((M + Er) * (real_of t2 - real_of t1) <= two100)%R).
  { apply Rle_trans with (IZR (2 ^ 52) * IZR (2 ^ 40))%R; [apply Rmult_le_compat; lra|]. rewrite <- mult_IZR. unfold two100. apply IZR_le. apply Z.leb_le. reflexivity. }
  assert (X3 : (/ two100 <= real_of t2 - real_of t1 <= two100)%R).
  { rewrite <- p100. split; [exact GT1|]. apply Rle_trans with (1 := GT2). rewrite p100, P40. unfold two100. apply IZR_le. apply Z.leb_le. reflexivity. }
  destruct (blend_close t1 t2 v1 v2 p (real_of t1) (real_of t2) (real_of v1) (real_of v2) (real_of p) (M + Er) (fin_of t1 Ft1) (fin_of t2 Ft2) (fin_of v1 FV1) (fin_of v2 FV2) (fin_of p Fp) T12 ltac:(unfold real_of in *; lra) X3 BV1 BV2 X1 X2) as (y & Fy & BY).
  eexists i, j, t1, t2, a, b, r1, r2, u00, u01, u10, u11, _. split; [exact T1|]. split; [exact T2|]. split; [exact Ha|]. split; [exact Hb|]. split; [exact R1|]. split; [exact R2|].
  split; [exact U00|]. split; [exact U01|]. split; [exact U10|]. split; [exact U11|]. split; [split; assumption|]. split; [exact QI|]. split; [|split; [exact (proj1 Fy)|]].
  - unfold bilinear_interpolate. cbn [b_t b_x b_allow b_extra]. rewrite (at_some _ _ _ _ T0). cbn [obind].
    pose proof (P_at number t Nt _ _ T0) as P0. pose proof (P_at number t Nt _ _ T9) as P9.
    assert (F0 : o_lt fcmp p t0 = false) by (apply not_true_is_false; rewrite o_lt_iff; intro Z; exact (proj1 (lt_not_le fcmp number f_order p t0 Np P0) Z G0)).
    rewrite F0. unfold minus_ at 1. destruct (Nat.leb_spec 1 (length t)); [|lia]. cbn [obind]. rewrite (at_some _ _ _ _ T9). cbn [obind].
    assert (F9 : o_ge fcmp p t9 = false) by (apply not_true_is_false; rewrite (o_ge_iff fcmp number f_order p t9 Np P9); intro Z; exact (proj1 (lt_not_le fcmp number f_order p t9 Np P9) G9 Z)).
    rewrite F9, Ei. cbn [obind]. rewrite (at_some _ _ _ _ T1), (at_some _ _ _ _ T2), (at_some _ _ _ _ L1), (at_some _ _ _ _ LL2). cbn [obind]. rewrite V1, V2. cbn [rbind]. reflexivity.
  - unfold real_of at 1, blend. rewrite (proj2 Fy). unfold bilinear_form. fold W1 W2.
    replace (y - straight (real_of t1) (real_of t2) W1 W2 (real_of p))%R with ((y - chord (real_of t1) (real_of t2) (real_of v1) (real_of v2) (real_of p)) + (chord (real_of t1) (real_of t2) (real_of v1) (real_of v2) (real_of p) - chord (real_of t1) (real_of t2) W1 W2 (real_of p)))%R by (unfold straight, chord; ring).
    apply Rle_trans with (1 := Rabs_triang _ _).
    pose proof (chord_shift (real_of t1) (real_of t2) W1 W2 (real_of v1) (real_of v2) (real_of p) Er T12 ltac:(unfold real_of in *; lra) B1 B2) as SH.
    assert (T148 : (/ 2 ^ 148 = 2 * / 2 ^ 149)%R) by (change 149 with (Datatypes.S 148); rewrite <- tech_pow_Rmult; field; apply pow_nonzero; lra).
    rewrite T148. replace (2 * / 2 ^ 149 * (1 + (real_of b - real_of a)))%R with (2 * s)%R by (unfold s; ring).
    rewrite TN. rewrite E24 in *. fold Er. unfold Er in *. unfold e24 in *. lra.
Qed.
(** the table of C118's example at (1/2, 1/2) *)
Example c119_hypotheses_met : Forall (fun r => gentle ex_d r 4) ex_rows /\ Forall finite ex_t /\ strictly_sorted fcmp ex_t /\ length ex_t = length ex_rows /\ (4 <= 2 ^ 50)%R /\
  (forall i a b, nth_error ex_t i = Some a -> nth_error ex_t (i + 1) = Some b -> / 2 ^ 100 <= real_of b - real_of a <= 2 ^ 40)%R /\
  (real_of (gof_Z 0) <= real_of half < real_of (gof_Z 2))%R.
Proof.
  destruct (small_fin 0 ltac:(lia)) as [F0 R0]. destruct (small_fin 1 ltac:(lia)) as [F1 R1]. destruct (small_fin 2 ltac:(lia)) as [F2 R2]. destruct (small_fin 3 ltac:(lia)) as [F3 R3]. destruct (small_fin 4 ltac:(lia)) as [F4 R4].
  assert (T : (4 <= 2 ^ 100)%R) by (rewrite p100; pose proof two100_pos; lra).
  assert (ST : strictly_sorted fcmp ex_d) by apply ex_gentle.
  assert (FD : Forall finite ex_d) by apply ex_gentle.
  assert (G : forall u v w : f32, (finite u /\ 0 <= real_of u <= 4)%R -> (finite v /\ 0 <= real_of v <= 4)%R -> (finite w /\ 0 <= real_of w <= 4)%R -> gentle ex_d [u; v; w] 4).
  { intros u v w [FU BU] [FV BV] [FW BW]. split; [reflexivity|]. split; [exact FD|]. split; [exact ST|]. split; [|split; [exact T|]].
    - constructor; [split; [exact FU|apply Rabs_le; lra]|]. constructor; [split; [exact FV|apply Rabs_le; lra]|]. constructor; [split; [exact FW|apply Rabs_le; lra]|]. constructor.
    - intros i a b y z Ha Hb Hu Hw. assert (i + 1 < 3) by (change 3 with (length ex_d); apply nth_error_Some; congruence).
      destruct i as [|[|i]]; [| |lia]; cbn [nth_error ex_d Nat.add] in Ha, Hb, Hu, Hw; un Ha; un Hb; un Hu; un Hw; rewrite ?R0, ?R1, ?R2; (split; [lra|]);
      (apply Rle_trans with 4%R; [apply Rabs_le; lra|lra]). }
  split; [unfold ex_rows; constructor; [|constructor; [|constructor; [|constructor]]]; apply G; (split; [assumption|rewrite ?R0, ?R1, ?R2, ?R3, ?R4; lra])|]. split; [exact FD|]. split; [exact ST|]. split; [reflexivity|]. split; [|split].
  - replace (2 ^ 50)%R with (IZR (2 ^ 50)) by (rewrite pow_IZR; reflexivity). apply IZR_le. apply Z.leb_le. reflexivity.
  - intros i a b Ha Hb. assert (i + 1 < 3) by (change 3 with (length ex_t); apply nth_error_Some; congruence).
    assert (P4 : (1 <= 2 ^ 40)%R) by (replace (2 ^ 40)%R with (IZR (2 ^ 40)) by (rewrite pow_IZR; reflexivity); apply IZR_le; apply Z.leb_le; reflexivity).
    assert (P1 : (/ 2 ^ 100 <= 1)%R) by (rewrite <- Rinv_1; apply Rinv_le; lra).
    destruct i as [|[|i]]; [| |lia]; cbn [nth_error ex_t Nat.add] in Ha, Hb; un Ha; un Hb; rewrite ?R0, ?R1, ?R2; lra.
  - rewrite R0, R2. replace (real_of half) with (/ 2)%R; [lra|]. unfold real_of, half. cbn -[IZR]. unfold F2R. cbn -[IZR]. lra.
Qed.

(** ** C120: the t knots and the edges, for any x interpolators *)
Lemma bnew_inv : forall t xs allow extra b, bilinear_new t xs allow extra = Ret (ROk b) -> length t = length xs /\ t <> [] /\ b = Bilinear t xs allow extra.
Proof.
  intros t xs allow extra b E. unfold bilinear_new in E. destruct (Nat.eqb_spec (length t) (length xs)) as [L|L]; cbn [negb] in E; [|discriminate E].
  destruct t as [|x t]; [discriminate E|]. cbn [is_ndarray_sorted obind] in E. destruct (sorted_from fcmp x t); [|discriminate E].
  split; [exact L|]. split; [discriminate|]. congruence.
Qed.
Theorem c120_edges : forall t xs allow extra b p q t0 t1 t8 t9 l0 l1 l8 l9, bilinear_new t xs allow extra = Ret (ROk b) -> Forall number t -> sorted fcmp t -> number p -> 2 <= length t ->
  nth_error t 0 = Some t0 -> nth_error t 1 = Some t1 -> nth_error t (length t - 2) = Some t8 -> nth_error t (length t - 1) = Some t9 ->
  nth_error xs 0 = Some l0 -> nth_error xs 1 = Some l1 -> nth_error xs (length t - 2) = Some l8 -> nth_error xs (length t - 1) = Some l9 ->
  (allow = false \/ extra = XNone -> lt fcmp p t0 \/ le fcmp t9 p -> bilinear_interpolate b p q = Ret RErr) /\
  (allow = true -> extra = XFlat -> lt fcmp p t0 -> bilinear_interpolate b p q = linear_interpolate l0 q) /\
  (allow = true -> extra = XFlat -> le fcmp t9 p -> bilinear_interpolate b p q = linear_interpolate l9 q) /\
  (forall v0 v1, allow = true -> extra = XLinear -> lt fcmp p t0 -> linear_interpolate l0 q = Ret (ROk v0) -> linear_interpolate l1 q = Ret (ROk v1) ->
     bilinear_interpolate b p q = Ret (ROk (gadd v0 (gdiv (gmul (gsub p t0) (gsub v1 v0)) (gsub t1 t0))))) /\
  (forall v8 v9, allow = true -> extra = XLinear -> le fcmp t9 p -> linear_interpolate l8 q = Ret (ROk v8) -> linear_interpolate l9 q = Ret (ROk v9) ->
     bilinear_interpolate b p q = Ret (ROk (gadd v9 (gdiv (gmul (gsub p t9) (gsub v9 v8)) (gsub t9 t8))))) /\
  (allow = true -> extra = XLinear -> lt fcmp p t0 -> linear_interpolate l0 q = Ret RErr -> bilinear_interpolate b p q = Ret RErr) /\
  (allow = true -> extra = XLinear -> le fcmp t9 p -> linear_interpolate l9 q = Ret RErr -> bilinear_interpolate b p q = Ret RErr).
Proof.
  intros t xs allow extra b p q t0 t1 t8 t9 l0 l1 l8 l9 E ND SV Np L2 T0 T1 T8 T9 X0 X1 X8 X9.
  destruct (bnew_inv t xs allow extra b E) as (L & N & ->). clear E.
  pose proof (P_at number t ND _ _ T0) as N0. pose proof (P_at number t ND _ _ T9) as N9.
  assert (BEL : lt fcmp p t0 -> bilinear_interpolate (Bilinear t xs allow extra) p q =
    if allow then match extra with XFlat => linear_interpolate l0 q
      | XLinear => let? v1 := linear_interpolate l0 q in let? v2 := linear_interpolate l1 q in Ret (ROk (blend v1 p t0 (gsub v2 v1) (gsub t1 t0)))
      | XNone => Ret RErr end else Ret RErr).
  { intro G. unfold bilinear_interpolate. cbn [b_t b_x b_allow b_extra]. rewrite (at_some _ _ _ _ T0). cbn [obind].
    assert (F : o_lt fcmp p t0 = true) by (apply o_lt_iff; exact G). rewrite F, (at_some _ _ _ _ T1), (at_some _ _ _ _ X0), (at_some _ _ _ _ X1). reflexivity. }
  assert (ABO : le fcmp t9 p -> bilinear_interpolate (Bilinear t xs allow extra) p q =
    if allow then match extra with XFlat => linear_interpolate l9 q
      | XLinear => let? v9 := linear_interpolate l9 q in let? v8 := linear_interpolate l8 q in Ret (ROk (blend v9 p t9 (gsub v9 v8) (gsub t9 t8)))
      | XNone => Ret RErr end else Ret RErr).
  { intro G. unfold bilinear_interpolate. cbn [b_t b_x b_allow b_extra]. rewrite (at_some _ _ _ _ T0). cbn [obind].
    pose proof (below fcmp number f_order t ND SV 0 (length t - 1) t0 t9 ltac:(lia) T0 T9) as G09.
    assert (F : o_lt fcmp p t0 = false).
    { apply not_true_is_false. rewrite o_lt_iff. intro Z. apply (proj1 (lt_not_le fcmp number f_order p t0 Np N0) Z). exact (le_trans' fcmp number f_order t0 t9 p N0 N9 Np G09 G). }
    rewrite F. unfold minus_. destruct (Nat.leb_spec 1 (length t)); [|lia]. destruct (Nat.leb_spec 2 (length t)); [|lia]. cbn [obind].
    rewrite (at_some _ _ _ _ T9). cbn [obind].
    assert (F9 : o_ge fcmp p t9 = true) by (apply (o_ge_iff fcmp number f_order p t9 Np N9); exact G).
    rewrite F9, (at_some _ _ _ _ T8), (at_some _ _ _ _ X8), (at_some _ _ _ _ X9). reflexivity. }
  split; [|split; [|split; [|split; [|split; [|split]]]]].
  - intros [->| ->] [G|G]; rewrite ?(BEL G), ?(ABO G); try reflexivity; destruct allow; reflexivity.
  - intros -> -> G. exact (BEL G).
  - intros -> -> G. exact (ABO G).
  - intros v0 v1 -> -> G E0 E1. rewrite (BEL G), E0, E1. reflexivity.
  - intros v8 v9 -> -> G E8 E9. rewrite (ABO G), E9, E8. reflexivity.
  - intros -> -> G E0. rewrite (BEL G), E0. reflexivity.
  - intros -> -> G E9. rewrite (ABO G), E9. reflexivity.
Qed.
Theorem c120_inside : forall t xs allow extra b p q t0 t9, bilinear_new t xs allow extra = Ret (ROk b) -> Forall number t -> strictly_sorted fcmp t -> number p ->
  nth_error t 0 = Some t0 -> nth_error t (length t - 1) = Some t9 -> le fcmp t0 p -> lt fcmp p t9 ->
  exists i t1 t2 l1 l2, nth_error t i = Some t1 /\ nth_error t (i + 1) = Some t2 /\ nth_error xs i = Some l1 /\ nth_error xs (i + 1) = Some l2 /\ le fcmp t1 p /\ lt fcmp p t2 /\
    (forall v1 v2, linear_interpolate l1 q = Ret (ROk v1) -> linear_interpolate l2 q = Ret (ROk v2) ->
       bilinear_interpolate b p q = Ret (ROk (gadd v1 (gdiv (gmul (gsub p t1) (gsub v2 v1)) (gsub t2 t1))))) /\
    (linear_interpolate l1 q = Ret RErr -> bilinear_interpolate b p q = Ret RErr) /\
    (forall v1, linear_interpolate l1 q = Ret (ROk v1) -> linear_interpolate l2 q = Ret RErr -> bilinear_interpolate b p q = Ret RErr).
Proof.
  intros t xs allow extra b p q t0 t9 E Nt St Np T0 T9 G0 G9. destruct (bnew_inv t xs allow extra b E) as (L & N & ->). clear E.
  pose proof (strict_sorted fcmp t St) as SVt. destruct (bs_total fcmp t p N) as (i & Ei & Li). pose proof (bs_place fcmp number f_order t p Nt Np SVt St i Ei) as (_ & _ & _ & PL).
  destruct (PL t0 t9 T0 T9 G0 G9) as (t1 & t2 & T1 & T2 & LA & LB). assert (Li1 : i + 1 < length t) by (apply nth_error_Some; congruence).
  destruct (at_lt _ xs i ltac:(lia)) as (l1 & X1 & _). destruct (at_lt _ xs (i + 1) ltac:(lia)) as (l2 & X2 & _).
  pose proof (P_at number t Nt _ _ T0) as P0. pose proof (P_at number t Nt _ _ T9) as P9.
  assert (EQ : bilinear_interpolate (Bilinear t xs allow extra) p q = let? v1 := linear_interpolate l1 q in let? v2 := linear_interpolate l2 q in Ret (ROk (blend v1 p t1 (gsub v2 v1) (gsub t2 t1)))).
  { unfold bilinear_interpolate. cbn [b_t b_x b_allow b_extra]. rewrite (at_some _ _ _ _ T0). cbn [obind].
    assert (F0 : o_lt fcmp p t0 = false) by (apply not_true_is_false; rewrite o_lt_iff; intro Z; exact (proj1 (lt_not_le fcmp number f_order p t0 Np P0) Z G0)).
    rewrite F0. unfold minus_ at 1. destruct (Nat.leb_spec 1 (length t)); [|lia]. cbn [obind]. rewrite (at_some _ _ _ _ T9). cbn [obind].
    assert (F9 : o_ge fcmp p t9 = false) by (apply not_true_is_false; rewrite (o_ge_iff fcmp number f_order p t9 Np P9); intro Z; exact (proj1 (lt_not_le fcmp number f_order p t9 Np P9) G9 Z)).
    rewrite F9, Ei. cbn [obind]. rewrite (at_some _ _ _ _ T1), (at_some _ _ _ _ T2), (at_some _ _ _ _ X1), (at_some _ _ _ _ X2). reflexivity. }
  exists i, t1, t2, l1, l2. split; [exact T1|]. split; [exact T2|]. split; [exact X1|]. split; [exact X2|]. split; [exact LA|]. split; [exact LB|]. rewrite EQ.
  split; [intros v1 v2 -> ->; reflexivity|]. split; [intros ->; reflexivity|]. intros v1 -> ->. reflexivity.
Qed.
(** on a t knot (but the last one): the value of that knot's own x interpolator *)
Theorem c120_knots : forall t xs allow extra b i q ti tj l1 l2 v1 v2, bilinear_new t xs allow extra = Ret (ROk b) -> Forall finite t -> strictly_sorted fcmp t ->
  nth_error t i = Some ti -> nth_error t (i + 1) = Some tj -> nth_error xs i = Some l1 -> nth_error xs (i + 1) = Some l2 -> (real_of tj - real_of ti <= 2 ^ 100)%R ->
  linear_interpolate l1 q = Ret (ROk v1) -> linear_interpolate l2 q = Ret (ROk v2) -> finite v1 -> finite v2 -> (Rabs (real_of v1) <= 2 ^ 100)%R -> (Rabs (real_of v2) <= 2 ^ 100)%R ->
  exists y, bilinear_interpolate b ti q = Ret (ROk y) /\ finite y /\ real_of y = real_of v1.
Proof.
  intros t xs allow extra b i q ti tj l1 l2 v1 v2 E Ft St Ti Tj X1 X2 SP V1 V2 F1 F2 B1 B2.
  pose proof (finite_numbers t Ft) as Nt. assert (Fi : finite ti) by (rewrite Forall_forall in Ft; eauto using nth_error_In). assert (Fj : finite tj) by (rewrite Forall_forall in Ft; eauto using nth_error_In).
  pose proof (finite_number ti Fi) as Ni. pose proof (strict_sorted fcmp t St) as SVt. assert (Li : i + 1 < length t) by (apply nth_error_Some; congruence).
  destruct (at_lt _ t 0 ltac:(lia)) as (t0 & T0 & _). destruct (at_lt _ t (length t - 1) ltac:(lia)) as (t9 & T9 & _).
  assert (G0 : le fcmp t0 ti) by (apply (below fcmp number f_order t Nt SVt 0 i); [lia|exact T0|exact Ti]).
  assert (G9 : lt fcmp ti t9) by (apply (St i (length t - 1)); [lia|exact Ti|exact T9]).
  destruct (c120_inside t xs allow extra b ti q t0 t9 E Nt St Ni T0 T9 G0 G9) as (k & t1 & t2 & k1 & k2 & T1 & T2 & K1 & K2 & LA & LB & BE & _).
  assert (k = i).
  { pose proof (P_at number t Nt _ _ T1) as P1. pose proof (P_at number t Nt _ _ T2) as P2.
    destruct (Nat.lt_trichotomy k i) as [Q|[Q|Q]]; [exfalso| assumption|exfalso].
    - pose proof (below fcmp number f_order t Nt SVt (k + 1) i t2 ti ltac:(lia) T2 Ti) as C. exact (proj1 (lt_not_le fcmp number f_order ti t2 Ni P2) LB C).
    - pose proof (St i k ti t1 Q Ti T1) as C. exact (proj1 (lt_not_le fcmp number f_order ti t1 Ni P1) C LA). }
  subst k. assert (t1 = ti) by congruence. assert (t2 = tj) by congruence. assert (k1 = l1) by congruence. assert (k2 = l2) by congruence. subst t1 t2 k1 k2. clear T1 T2 K1 K2.
  eexists. split; [exact (BE v1 v2 V1 V2)|]. rewrite p100 in *. pose proof two100_pos as T0'. pose proof e24_pos as E0.
  assert (AB : (real_of ti < real_of tj)%R) by (apply flt_finite; assumption).
  pose proof (abs_le_2 _ _ _ B2 B1) as WU.
  destruct (sub_err v2 v1 _ _ (fin_of v2 F2) (fin_of v1 F1)) as (w & d1 & Fw & D1 & Ew); [apply two100_127; lra|].
  destruct (sub_err tj ti _ _ (fin_of tj Fj) (fin_of ti Fi)) as (u & d2 & Fu & D2 & Eu); [apply two100_127; rewrite Rabs_pos_eq by lra; lra|].
  assert (D2' := Rabs_le_inv _ _ D2). assert (U0 : (u <> 0)%R) by (rewrite Eu; apply Rmult_integral_contrapositive_currified; unfold e24 in D2'; lra).
  assert (Z : (Rabs 0 <= huge 128)%R) by (rewrite Rabs_R0; rewrite hug; apply bpow_ge_0).
  pose proof (fin_sub 24 128 ti ti _ _ (fin_of ti Fi) (fin_of ti Fi)) as A. replace (real_of ti - real_of ti)%R with 0%R in A by lra. rewrite rnd_0 in A by exact p24. specialize (A Z).
  pose proof (fin_mul 24 128 _ _ _ _ A Fw) as B. rewrite Rmult_0_l, rnd_0 in B by exact p24. specialize (B Z).
  pose proof (fin_div 24 128 _ _ _ _ B Fu U0) as C. unfold Rdiv in C. rewrite Rmult_0_l, rnd_0 in C by exact p24. specialize (C Z).
  pose proof (fin_add 24 128 v1 _ _ _ (fin_of v1 F1) C) as D. rewrite Rplus_0_r in D. unfold real_of in D at 1. 
  assert (HV : (Rabs (real_of v1) <= huge 128)%R) by (rewrite hug; apply two100_127; lra). specialize (D HV).
  unfold real_of in D. rewrite (rnd_B2R 24 128) in D. exact D.
Qed.
(** REFUTED: the last t knot belongs to the domain, but without extrapolation it
    is an error whatever x is *)
Theorem c120_last_refuted : forall t xs extra b q t9, bilinear_new t xs false extra = Ret (ROk b) -> Forall number t -> sorted fcmp t -> 2 <= length t ->
  nth_error t (length t - 1) = Some t9 -> bilinear_interpolate b t9 q = Ret RErr.
Proof.
  intros t xs extra b q t9 E Nt St L2 T9. destruct (bnew_inv t xs false extra b E) as (L & N & _).
  destruct (at_lt _ t 0 ltac:(lia)) as (t0 & T0 & _). destruct (at_lt _ t 1 ltac:(lia)) as (t1 & T1 & _). destruct (at_lt _ t (length t - 2) ltac:(lia)) as (t8 & T8 & _).
  destruct (at_lt _ xs 0 ltac:(lia)) as (l0 & X0 & _). destruct (at_lt _ xs 1 ltac:(lia)) as (l1 & X1 & _). destruct (at_lt _ xs (length t - 2) ltac:(lia)) as (l8 & X8 & _). destruct (at_lt _ xs (length t - 1) ltac:(lia)) as (l9 & X9 & _).
  pose proof (P_at number t Nt _ _ T9) as N9.
  apply (proj1 (c120_edges t xs false extra b t9 q t0 t1 t8 t9 l0 l1 l8 l9 E Nt St N9 L2 T0 T1 T8 T9 X0 X1 X8 X9)); [left; reflexivity|right; exact (le_refl' fcmp number f_order t9 N9)].
Qed.
(** the example table: at t = 3 flat gives row 2, linear one more; at the knot t = 1, row 1; the knots are finite and sorted *)
Example c120_hypotheses_met : Forall finite ex_t /\ strictly_sorted fcmp ex_t /\ bgives ex_b (gof_Z 3) half (gof_Z 2) = false /\
  bgives ex_b (gof_Z 3) (gof_Z 1) (gof_Z 3) = true /\ bgives (bilinear_rect ex_t ex_d ex_rows 3 true XFlat true XLinear) (gof_Z 3) (gof_Z 1) (gof_Z 4) = true /\
  bgives ex_b (gof_Z 1) (gof_Z 1) (gof_Z 2) = true.
Proof. split; [apply c119_hypotheses_met|]. split; [apply c119_hypotheses_met|]. repeat split; vm_compute; reflexivity. Qed.
Print Assumptions c118_new.
Print Assumptions c118_empty_refuted.
Print Assumptions c118_rect.
Print Assumptions c118_unsorted_refuted.
Print Assumptions c118_answers.
Print Assumptions c119_accurate.
Print Assumptions c120_edges.
Print Assumptions c120_inside.
Print Assumptions c120_knots.
Print Assumptions c120_last_refuted.
