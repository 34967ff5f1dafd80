(** QCholProps.v -- C201-C203: the Cholesky factor. *)
From Coq Require Import ZArith Bool List Lia Reals Lra.
From Flocq Require Import Core IEEE754.BinarySingleNaN.
From Verif Require Import Base FloatModel FloatFacts KrxModel QFloatErr QCholModel QCholSpec QCholProofs QCholSure QCurveSpec.
Import ListNotations.
Open Scope R_scope.

(** the numbers in a matrix *)
Definition real (m : matrix) : nat -> nat -> R := fun i j => value (m i j).
Definition finite_below (n : nat) (m : matrix) : Prop := forall i j, (j <= i)%nat -> (i < n)%nat -> is_finite (m i j) = true.
(** 2^-24: half a unit in the last place of 1; 2^-150: half the least positive number *)
Definition half_ulp : R := / 16777216.
Definition half_least : R := bpow radix2 (-150).

(** ** C201 *)
Lemma row_diag : forall n a l, cholesky_decomposition n n a = ROk l -> inv a n 0 l.
Proof. intros n a l H. pose proof (cholesky_inv n a) as C. rewrite H in C. exact C. Qed.
Lemma upper : forall n a l p q, inv a n 0 l -> (p < q)%nat -> l p q = gof_Z 0.
Proof. intros n a l p q I L. apply (proj2 I). lia. Qed.
Lemma gram_sum : forall n a l p q, inv a n 0 l -> (q <= p)%nat -> (p < n)%nat -> gram (real l) n p q = sum l p q (S q) /\ total (fun k => Rabs (real l p k) * Rabs (real l q k)) n = mass l p q (S q).
Proof.
  intros n a l p q I L Lp. unfold gram, sum, mass, real, value. split; apply total_cut; try lia; intros k Hk; rewrite (upper n a l q k I) by lia; change (B2R (gof_Z 0 : f32)) with 0; rewrite ?Rabs_R0; ring.
Qed.
(** The factor is lower triangular; if its diagonal is finite, so is all of it, the diagonal is
    positive, the matrix below the diagonal was finite, and L L^T is the matrix up to rounding *)
Theorem c201_factor : forall nr nc a l, cholesky_decomposition nr nc a = ROk l -> nc = nr /\
  (forall i j, (i < j)%nat -> value (l i j) = 0) /\
  ((forall i, (i < nr)%nat -> is_finite (l i i) = true) -> finite_below nr l /\ (forall i, (i < nr)%nat -> 0 < value (l i i)) /\
    forall i j, (j <= i)%nat -> (i < nr)%nat ->
      Rabs (value (a i j) - gram (real l) nr i j) <= ((1 + half_ulp) ^ (nr + 3) - 1) * total (fun k => Rabs (value (l i k)) * Rabs (value (l j k))) nr + (INR nr * (1 + half_ulp) ^ nr + 2 * value (l j j)) * half_least).
Proof.
  intros nr nc a l H. assert (E : nc = nr). { unfold cholesky_decomposition in H. destruct (Nat.eqb_spec nr nc) as [E|E]; [auto|discriminate H]. }
  subst nc. pose proof (row_diag nr a l H) as I. split; [reflexivity|]. split; [intros i j L; rewrite (upper nr a l i j I L); reflexivity|].
  intro F. split; [intros i j _ L; exact (factor_finite a l nr 0 I F i j L)|]. split; [intros i L; exact (proj1 (factor_close a l nr 0 I F i i (Nat.le_refl i) L))|].
  intros i j L Li. destruct (gram_sum nr a l i j I L Li) as [-> Q]. unfold real in Q. rewrite Q. exact (proj2 (factor_close a l nr 0 I F i j L Li)).
Qed.
(** With no diagonal entry above D, each entry comes back to within (n + 4) D / 2^23 *)
Theorem c201_entries : forall n a l D, cholesky_decomposition n n a = ROk l -> (forall i, (i < n)%nat -> is_finite (l i i) = true) ->
  INR n <= 65536 -> bpow radix2 (-60) <= D -> (forall i, (i < n)%nat -> value (a i i) <= D) ->
  forall i j, (j <= i)%nat -> (i < n)%nat -> Rabs (value (a i j) - gram (real l) n i j) <= (INR n + 4) * (2 * half_ulp) * D.
Proof.
  intros n a l D H F N1 D0 B i j L Li. pose proof (row_diag n a l H) as I. destruct (gram_sum n a l i j I L Li) as [-> _].
  pose proof (bpow_gt_0 radix2 (-60)) as DP0. assert (DP : 0 < D) by lra. change half_ulp with e24. pose proof e24_pos as U. pose proof (pos_INR n) as NP. pose proof tiny_pos as TP. set (u := e24) in *.
  assert (NE : INR (n + 3) = INR n + 3) by (rewrite plus_INR; replace (INR 3) with 3 by (cbn; lra); reflexivity).
  assert (US : (INR n + 4) * u <= / 200) by (unfold u, e24; lra).
  pose proof (grow_lin (n + 3) ltac:(rewrite NE; fold u; lra)) as G. rewrite NE in G. pose proof (grow_pos (n + 3)) as GP. pose proof (grow_le n (n + 3) ltac:(lia)) as GN. pose proof (grow_pos n) as GP1. fold u in G.
  assert (G1 : grow (n + 3) - 1 <= 1.01 * ((INR n + 3) * u)) by (set (g := grow (n + 3)) in *; set (y := (INR n + 3) * u) in *; assert (0 <= y <= / 200) by (unfold y; nra); nra).
  assert (TU : 16000000 * tiny <= u * D) by (unfold u; exact (tiny_ud D D0)). assert (TE : 16000000 * tiny <= u) by (unfold u; exact tiny_e24).
  assert (NT : INR n * grow n * tiny <= / 100 * (u * D)). { assert (X : INR n * grow n <= 65536 * 2) by (apply Rmult_le_compat; try lra; unfold u, e24 in *; lra). pose proof (Rmult_le_compat_r tiny _ _ (Rlt_le _ _ TP) X). nra. }
  assert (UD : u * D <= / 1000000 * D) by (apply Rmult_le_compat_r; [lra|exact e24_small]).
  assert (R : forall p, (p < n)%nat -> sum l p p (S p) <= 1.1 * D).
  { intros p Lp. destruct (diag_close a l p (n + 3) ltac:(lia) (proj1 I p p ltac:(lia) (or_introl Lp)) (F p Lp)) as (_ & _ & _ & C). specialize (B p Lp). unfold value in B.
    assert (NTp : INR p * grow p * tiny <= INR n * grow n * tiny) by (apply Rmult_le_compat_r; [lra|]; apply Rmult_le_compat; [apply pos_INR|pose proof (grow_pos p); lra|apply le_INR; lia|apply grow_le; lia]).
    pose proof (sum_nonneg l p (S p)) as SN. set (T := sum l p p (S p)) in *. apply Rabs_le_inv in C. assert (X : (grow (n + 3) - 1) * T <= / 100 * T) by (apply Rmult_le_compat_r; [exact SN|]; nra). nra. }
  destruct (factor_close a l n 0 I F i j L Li) as [_ C]. unfold value. apply Rle_trans with (1 := C).
  assert (M : mass l i j (S j) <= 1.1 * D).
  { apply Rle_trans with (1 := mass_half l i j (S j)). pose proof (R i Li) as R1. pose proof (R j ltac:(lia)) as R2. pose proof (sum_le l i (S j) (S i) ltac:(lia)) as SL. lra. }
  pose proof (mass_nonneg l i j (S j)) as MN. set (w := val (l j j)) in *. assert (W : w * w <= 1.1 * D) by (pose proof (R j ltac:(lia)) as R2; rewrite sum_S in R2; fold w in R2; pose proof (sum_nonneg l j j); lra).
  assert (W1 : 2 * w <= 1 + 1.1 * D) by (pose proof (Rle_0_sqr (w - 1)) as Q; unfold Rsqr in Q; lra).
  assert (WT : 2 * w * tiny <= / 100 * (u * D)). { apply Rle_trans with ((1 + 1.1 * D) * tiny); [apply Rmult_le_compat_r; lra|]. assert (X : D * (16000000 * tiny) <= D * u) by (apply Rmult_le_compat_l; lra). lra. }
  assert (X : (grow (n + 3) - 1) * mass l i j (S j) <= 1.01 * ((INR n + 3) * u) * (1.1 * D)) by (apply Rmult_le_compat; lra).
  assert (Y : 0 <= INR n * (u * D)) by (apply Rmult_le_pos; [lra|]; apply Rmult_le_pos; lra). assert (Y1 : 0 < u * D) by (apply Rmult_lt_0_compat; lra). fold w. lra.
Qed.
(** and L L^T is positive definite *)
Theorem c201_definite : forall n a l, cholesky_decomposition n n a = ROk l -> (forall i, (i < n)%nat -> is_finite (l i i) = true) -> positive_definite n (gram (real l) n).
Proof.
  intros n a l H F. destruct (c201_factor n n a l H) as (_ & U & C). destruct (C F) as (_ & P & _). apply gram_definite; [intros p k L; apply U; lia|]. intros k L. pose proof (P k L). unfold real. lra.
Qed.

(** ** C203: a matrix whose eigenvalues are all clear of zero is factored *)
Theorem c203_factored : forall n a D, finite_below n a -> symmetric n (real a) -> (forall i j, (j <= i)%nat -> (i < n)%nat -> Rabs (value (a i j)) <= D) ->
  bpow radix2 (-60) <= D <= bpow radix2 40 -> definite_by (8 * INR n * (INR n + 4) * half_ulp * D) n (real a) ->
  exists l, cholesky_decomposition n n a = ROk l /\ forall i j, (i < n)%nat -> is_finite (l i j) = true.
Proof.
  intros n a D Fa SY B [D0 D1] DF. exact (surely a n D _ Fa B SY D0 D1 DF (Rle_refl _)).
Qed.

(** ** C202: what is checked *)
(** nothing above the diagonal is read *)
Theorem c202_lower : forall nr nc a a', (forall i j, (j <= i)%nat -> (i < nr)%nat -> a i j = a' i j) -> cholesky_decomposition nr nc a = cholesky_decomposition nr nc a'.
Proof. intros nr nc a a' H. exact (lower_only a a' nr nc H). Qed.
(** a matrix that is not square is refused *)
Theorem c202_square : forall nr nc a, nr <> nc -> cholesky_decomposition nr nc a = RErr.
Proof. intros nr nc a H. unfold cholesky_decomposition. destruct (Nat.eqb_spec nr nc); [contradiction|reflexivity]. Qed.
(** a correlated path has a row for each row of the matrix and a column for each step; it
    panics on a matrix that is refused and on no other *)
Theorem c202_path : forall product draws steps nr nc a,
  (cholesky_decomposition nr nc a = RErr -> correlated_path product draws steps nr nc a = Panic) /\
  (forall l, cholesky_decomposition nr nc a = ROk l -> exists m, correlated_path product draws steps nr nc a = Ret (nr, steps, m) /\ m = product nr steps l draws).
Proof.
  intros product draws steps nr nc a. unfold correlated_path. split; [intros ->; reflexivity|]. intros l ->. eexists. split; reflexivity.
Qed.

(** two by two, of whole numbers *)
Definition square2 (p q r s : Z) : matrix := fun i j => gof_Z (match i, j with O, O => p | O, _ => q | _, O => r | _, _ => s end).
Lemma whole : forall k, (Z.abs k <=? 2 ^ 24)%Z = true -> is_finite (gof_Z k : f32) = true /\ value (gof_Z k) = IZR k.
Proof.
  intros k H. apply Z.leb_le in H. pose proof (fin_of_Z 24 128 k) as F. rewrite (rnd_int 24 128) in F by exact H. apply F. rewrite hug, <- abs_IZR. apply Rle_trans with (IZR (2 ^ 24)); [apply IZR_le; exact H|]. replace (IZR (2 ^ 24)) with (bpow radix2 24) by reflexivity. apply bpow_le. lia.
Qed.
Lemma real2 : forall p q r s, forallb (fun k => Z.abs k <=? 2 ^ 24)%Z [p; q; r; s] = true -> forall x, form (real (square2 p q r s)) 2 x = IZR p * (x 0%nat * x 0%nat) + (IZR q + IZR r) * (x 0%nat * x 1%nat) + IZR s * (x 1%nat * x 1%nat).
Proof.
  intros p q r s H x. cbn [forallb] in H. apply andb_true_iff in H. destruct H as [H1 H]. apply andb_true_iff in H. destruct H as [H2 H]. apply andb_true_iff in H. destruct H as [H3 H]. apply andb_true_iff in H. destruct H as [H4 _].
  unfold form, real. cbn [total]. unfold square2. rewrite (proj2 (whole p H1)), (proj2 (whole q H2)), (proj2 (whole r H3)), (proj2 (whole s H4)). ring.
Qed.
Lemma symmetric2 : forall p q s, symmetric 2 (real (square2 p q q s)).
Proof. intros p q s i j Li Lj. unfold real, square2. destruct i as [|[|i]], j as [|[|j]]; try reflexivity; lia. Qed.
Definition accepts (n : nat) (a : matrix) : bool := match cholesky_decomposition n n a with ROk _ => true | RErr => false end.
Lemma accepts_ok : forall n a, accepts n a = true -> exists l, cholesky_decomposition n n a = ROk l.
Proof. intros n a H. unfold accepts in H. destruct (cholesky_decomposition n n a) as [l|]; [exists l; reflexivity|discriminate H]. Qed.
Lemma accepts_err : forall n a, accepts n a = false -> cholesky_decomposition n n a = RErr.
Proof. intros n a H. unfold accepts in H. destruct (cholesky_decomposition n n a) as [l|]; [discriminate H|reflexivity]. Qed.

(** that the matrix is symmetric is not checked *)
Theorem c202_symmetric_refuted : ~ forall n a l, cholesky_decomposition n n a = ROk l -> symmetric n (real a).
Proof.
  intro H. destruct (accepts_ok 2 (square2 4 7 2 10) ltac:(vm_compute; reflexivity)) as [l E]. specialize (H 2%nat _ l E 0%nat 1%nat ltac:(lia) ltac:(lia)). unfold real, square2 in H. rewrite (proj2 (whole 7 eq_refl)), (proj2 (whole 2 eq_refl)) in H. lra.
Qed.
(** one that is positive definite may be refused, one that is not may be taken *)
Theorem c202_refuses_refuted : exists a, finite_below 2 a /\ symmetric 2 (real a) /\ positive_definite 2 (real a) /\ cholesky_decomposition 2 2 a = RErr.
Proof.
  exists (square2 524288 2359296 2359296 10616833). split; [|split; [|split]].
  - intros i j L Li. destruct i as [|[|i]], j as [|[|j]]; try lia; apply whole; reflexivity.
  - apply symmetric2.
  - intros x (i & Li & X). rewrite real2 by reflexivity. assert (N : x 0%nat <> 0 \/ x 1%nat <> 0) by (destruct i as [|[|i]]; [auto|auto|lia]). set (y := x 0%nat) in *. set (z := x 1%nat) in *.
    apply Rmult_lt_reg_l with 524288; [lra|]. rewrite Rmult_0_r. replace (524288 * (524288 * (y * y) + (2359296 + 2359296) * (y * z) + 10616833 * (z * z))) with ((524288 * y + 2359296 * z) * (524288 * y + 2359296 * z) + 524288 * (z * z)) by ring.
    pose proof (Rle_0_sqr (524288 * y + 2359296 * z)) as Q1. unfold Rsqr in Q1. pose proof (Rle_0_sqr z) as Q2. unfold Rsqr in Q2. destruct (Req_dec z 0) as [Z|Z].
    + rewrite Z in *. destruct N as [N|N]; [|contradiction]. pose proof (Rsqr_pos_lt y N) as Q. unfold Rsqr in Q. lra.
    + pose proof (Rsqr_pos_lt z Z) as Q. unfold Rsqr in Q. lra.
  - apply accepts_err. vm_compute. reflexivity.
Qed.
Theorem c202_takes_refuted : exists a l x, finite_below 2 a /\ symmetric 2 (real a) /\ cholesky_decomposition 2 2 a = ROk l /\ form (real a) 2 x < 0.
Proof.
  destruct (accepts_ok 2 (square2 1310720 3145728 3145728 7549747) ltac:(vm_compute; reflexivity)) as [l E]. exists (square2 1310720 3145728 3145728 7549747), l, (fun i => match i with O => 12 | _ => -5 end). split; [|split; [|split]].
  - intros i j L Li. destruct i as [|[|i]], j as [|[|j]]; try lia; apply whole; reflexivity.
  - apply symmetric2.
  - exact E.
  - rewrite real2 by reflexivity. lra.
Qed.
(** and from a finite matrix a factor may come that is not *)
Definition dust : f32 := @B754_finite 24 128 false 1 (-149) eq_refl.
Definition steep : matrix := fun i j => match i, j with O, O => dust | 1%nat, 1%nat => gof_Z 1 | 2%nat, 2%nat => gof_Z 1 | O, 2%nat => gof_Z (2 ^ 60) | 2%nat, O => gof_Z (2 ^ 60) | _, _ => gof_Z 0 end.
Definition steep_nan : bool := match cholesky_decomposition 3 3 steep with ROk l => is_nan (l 2%nat 2%nat) | RErr => false end.
Theorem c202_finite_refuted : exists a l, (forall i j, is_finite (a i j) = true /\ a i j = a j i) /\ cholesky_decomposition 3 3 a = ROk l /\ is_nan (l 2%nat 2%nat) = true.
Proof.
  exists steep. assert (E : steep_nan = true) by (vm_compute; reflexivity). unfold steep_nan in E. destruct (cholesky_decomposition 3 3 steep) as [l|] eqn:C; [|discriminate E]. exists l. split; [|split; [reflexivity|exact E]].
  intros i j. destruct i as [|[|[|i]]], j as [|[|[|j]]]; split; reflexivity.
Qed.

(** ** A case that meets the hypotheses *)
Definition ex_matrix : matrix := square2 4 2 2 10.
Definition ex_finite : bool := match cholesky_decomposition 2 2 ex_matrix with ROk l => is_finite (l 0%nat 0%nat) && is_finite (l 1%nat 1%nat) | RErr => false end.
Example c201_hypotheses_met : exists l, cholesky_decomposition 2 2 ex_matrix = ROk l /\ (forall i, (i < 2)%nat -> is_finite (l i i) = true) /\ (forall i, (i < 2)%nat -> value (ex_matrix i i) <= 10).
Proof.
  assert (E : ex_finite = true) by (vm_compute; reflexivity). unfold ex_finite in E. destruct (cholesky_decomposition 2 2 ex_matrix) as [l|]; [|discriminate E]. exists l. split; [reflexivity|]. apply andb_true_iff in E. destruct E as [E1 E2]. split.
  - intros i L. destruct i as [|[|i]]; [exact E1|exact E2|lia].
  - intros i L. unfold ex_matrix, square2. destruct i as [|[|i]]; [rewrite (proj2 (whole 4 eq_refl)); lra|rewrite (proj2 (whole 10 eq_refl)); lra|lia].
Qed.
Example c203_hypotheses_met : finite_below 2 ex_matrix /\ symmetric 2 (real ex_matrix) /\ (forall i j, (j <= i)%nat -> (i < 2)%nat -> Rabs (value (ex_matrix i j)) <= 10) /\ bpow radix2 (-60) <= 10 <= bpow radix2 40 /\ definite_by (8 * INR 2 * (INR 2 + 4) * half_ulp * 10) 2 (real ex_matrix).
Proof.
  split; [|split; [|split; [|split]]].
  - intros i j L Li. destruct i as [|[|i]], j as [|[|j]]; try lia; apply whole; reflexivity.
  - apply symmetric2.
  - intros i j L Li. unfold ex_matrix, square2. destruct i as [|[|i]], j as [|[|j]]; try lia; first [rewrite (proj2 (whole 4 eq_refl))|rewrite (proj2 (whole 2 eq_refl))|rewrite (proj2 (whole 10 eq_refl))]; apply Rabs_le; lra.
  - split; [apply Rle_trans with (bpow radix2 0); [apply bpow_le; lia|cbn; lra]|apply Rle_trans with (bpow radix2 4); [cbn; lra|apply bpow_le; lia]].
  - intro x. unfold ex_matrix. rewrite real2 by reflexivity. unfold norm2. cbn [total]. set (y := x 0%nat). set (z := x 1%nat). replace (INR 2) with 2 by (cbn; lra). unfold half_ulp.
    pose proof (Rle_0_sqr (y + z)) as Q. pose proof (Rle_0_sqr y) as Q1. pose proof (Rle_0_sqr z) as Q2. unfold Rsqr in *. nra.
Qed.

Print Assumptions c201_factor.
Print Assumptions c201_entries.
Print Assumptions c201_definite.
Print Assumptions c203_factored.
Print Assumptions c202_lower.
Print Assumptions c202_square.
Print Assumptions c202_path.
Print Assumptions c202_symmetric_refuted.
Print Assumptions c202_refuses_refuted.
Print Assumptions c202_takes_refuted.
Print Assumptions c202_finite_refuted.
