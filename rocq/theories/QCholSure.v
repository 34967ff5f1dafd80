(** QCholSure.v -- Cholesky: positive definite products, and the matrices that are surely factored. *)
From Coq Require Import ZArith Bool List Lia Reals Lra.
From Flocq Require Import Core Relative IEEE754.BinarySingleNaN.
From Verif Require Import Base FloatModel FloatFacts KrxModel QFloatErr QCholModel QCholSpec QCholProofs.
Import ListNotations.
Open Scope R_scope.

Lemma form_gram : forall m j n x, form (gram m j) n x = total (fun k => total (fun p => x p * m p k) n * total (fun p => x p * m p k) n) j.
Proof.
  intros m j n x. unfold form, gram.
  transitivity (total (fun i => total (fun q => total (fun k => (x i * m i k) * (x q * m q k)) j) n) n).
  { apply total_ext. intros i _. apply total_ext. intros q _. rewrite <- total_scal, <- total_scal_r. apply total_ext. intros k _. ring. }
  transitivity (total (fun i => total (fun k => total (fun q => (x i * m i k) * (x q * m q k)) n) j) n).
  { apply total_ext. intros i _. apply total_swap. }
  rewrite total_swap. apply total_ext. intros k _. rewrite <- total_scal_r. apply total_ext. intros i _. apply total_scal.
Qed.
Lemma last_nonzero : forall (x : nat -> R) n, (exists i, (i < n)%nat /\ x i <> 0) -> exists m, (m < n)%nat /\ x m <> 0 /\ forall k, (m < k < n)%nat -> x k = 0.
Proof.
  intros x n. induction n as [|n IH]; intros (i & L & N); [lia|]. destruct (Req_dec (x n) 0) as [Z|Z].
  - destruct IH as (m & Lm & Nm & H); [exists i; split; [|exact N]; destruct (Nat.eq_dec i n) as [->|]; [contradiction|lia]|]. exists m. split; [lia|]. split; [exact Nm|]. intros k Hk. destruct (Nat.eq_dec k n) as [->|]; [exact Z|apply H; lia].
  - exists n. split; [lia|]. split; [exact Z|]. intros; lia.
Qed.
Lemma gram_definite : forall (m : nat -> nat -> R) n, (forall p k, (p < k < n)%nat -> m p k = 0) -> (forall k, (k < n)%nat -> m k k <> 0) -> positive_definite n (gram m n).
Proof.
  intros m n U D x X. destruct (last_nonzero x n X) as (j & L & N & H). rewrite form_gram.
  set (f := fun k => total (fun p => x p * m p k) n * total (fun p => x p * m p k) n). assert (P : forall k, (k < n)%nat -> 0 <= f k) by (intros k _; apply Rle_0_sqr).
  apply Rlt_le_trans with (f j); [|apply (total_term f n j P L)]. unfold f. rewrite (total_one (fun p => x p * m p j) n j L).
  - specialize (D j L). assert (Q : x j * m j j <> 0) by (apply Rmult_integral_contrapositive; auto). exact (Rsqr_pos_lt _ Q).
  - intros k Hk NE. destruct (Nat.lt_ge_cases k j) as [C|C]; [rewrite (U k j) by lia; ring|rewrite (H k) by lia; ring].
Qed.

(** ** A vector that shows what is left of a diagonal entry *)
Lemma solve : forall (m : nat -> nat -> R) n i j, (j <= i)%nat -> (i < n)%nat -> (forall p k, (p < k)%nat -> (k < j)%nat -> m p k = 0) -> (forall k, (k < j)%nat -> m k k <> 0) ->
  exists x : nat -> R, x i = 1 /\ (forall p, (j <= p)%nat -> p <> i -> x p = 0) /\ forall k, (k < j)%nat -> total (fun p => x p * m p k) n = 0.
Proof.
  intros m n i j L Li U D.
  assert (G : forall s, (s <= j)%nat -> exists x : nat -> R, x i = 1 /\ (forall p, (p < j - s)%nat \/ (j <= p)%nat -> p <> i -> x p = 0) /\ forall k, (j - s <= k < j)%nat -> total (fun p => x p * m p k) n = 0).
  { induction s as [|s IH]; intro Ls.
    - exists (fun p => if (p =? i)%nat then 1 else 0). rewrite Nat.eqb_refl. split; [reflexivity|]. split; [|intros; lia]. intros p _ N. destruct (Nat.eqb_spec p i); [contradiction|reflexivity].
    - destruct (IH ltac:(lia)) as (x & X1 & X2 & X3). set (c := (j - S s)%nat). set (y := - total (fun p => x p * m p c) n / m c c).
      assert (Xc : x c = 0) by (apply X2; unfold c; lia). pose (x' := fun p => if (p =? c)%nat then y else x p).
      assert (XX : forall k, total (fun p => x' p * m p k) n = total (fun p => x p * m p k) n + y * m c k).
      { intro k. transitivity (total (fun p => x p * m p k + (if (p =? c)%nat then y * m c k else 0)) n).
        - apply total_ext. intros p _. unfold x'. destruct (Nat.eqb_spec p c) as [->|]; [rewrite Xc; ring|ring].
        - rewrite total_plus. f_equal. rewrite (total_one _ n c); [rewrite Nat.eqb_refl; reflexivity|unfold c; lia|]. intros q _ N. destruct (Nat.eqb_spec q c); [contradiction|reflexivity]. }
      exists x'. split; [unfold x'; destruct (Nat.eqb_spec i c); [unfold c in *; lia|exact X1]|]. split.
      + intros p Hp N. unfold x'. destruct (Nat.eqb_spec p c); [unfold c in *; lia|]. apply X2; [lia|exact N].
      + intros k Hk. rewrite XX. destruct (Nat.eq_dec k c) as [->|N].
        * unfold y. field. apply D. unfold c. lia.
        * rewrite X3 by (unfold c in *; lia). rewrite (U c k) by (unfold c in *; lia). ring. }
  destruct (G j (Nat.le_refl j)) as (x & X1 & X2 & X3). exists x. split; [exact X1|]. split; [intros; apply X2; auto|]. intros k Hk. apply X3. lia.
Qed.
Lemma certificate : forall (A m : nat -> nat -> R) n i j E c, (j <= i)%nat -> (i < n)%nat -> (forall p k, (p < k)%nat -> (k < j)%nat -> m p k = 0) -> (forall k, (k < j)%nat -> m k k <> 0) ->
  symmetric n A -> definite_by c n A -> 0 <= E -> (forall p q, (p < j)%nat \/ p = i -> (q < j)%nat -> (q <= p)%nat -> Rabs (A p q - gram m j p q) <= E) -> 0 <= c - INR n * E ->
  c - INR n * E <= A i i - gram m j i i.
Proof.
  intros A m n i j E c L Li U D SY DF E0 H C0. destruct (solve m n i j L Li U D) as (x & X1 & X2 & X3). specialize (DF x). set (r := A i i - gram m j i i) in *.
  assert (GS : forall p q, gram m j p q = gram m j q p) by (intros p q; unfold gram; apply total_ext; intros; ring).
  assert (K : form A n x <= form (gram m j) n x + (E * (INR n * norm2 n x) + r)).
  { apply Rle_trans with (form (gram m j) n x + (E * total (fun p => total (fun q => Rabs (x p) * Rabs (x q)) n) n + r)); [|pose proof (Rmult_le_compat_l E _ _ E0 (square_total x n)); lra].
    assert (IR : total (fun p => total (fun q => if ((p =? i) && (q =? i))%nat then r else 0) n) n = r).
    { rewrite (total_one _ n i Li). - rewrite (total_one _ n i Li); [rewrite Nat.eqb_refl; reflexivity|]. intros q _ N. destruct (Nat.eqb_spec q i); [contradiction|]. rewrite andb_false_r. reflexivity.
      - intros p _ N. apply total_zero. intros q _. destruct (Nat.eqb_spec p i); [contradiction|reflexivity]. }
    rewrite <- IR at 1. unfold form. rewrite <- total_scal. rewrite <- !total_plus. apply total_le. intros p Lp. rewrite <- total_scal. rewrite <- !total_plus. apply total_le. intros q Lq.
    assert (T : (if ((p =? i) && (q =? i))%nat then r else 0) = 0 \/ p = i /\ q = i) by (destruct (Nat.eqb_spec p i), (Nat.eqb_spec q i); auto).
    assert (EP : 0 <= E * (Rabs (x p) * Rabs (x q))) by (apply Rmult_le_pos; [exact E0|apply Rmult_le_pos; apply Rabs_pos]).
    destruct T as [T|[-> ->]].
    2:{ rewrite !Nat.eqb_refl. cbn [andb]. unfold r. rewrite X1. rewrite X1 in EP. lra. }
    destruct ((p =? i) && (q =? i))%nat eqn:B.
    { apply andb_true_iff in B. destruct B as [B1 B2]. apply Nat.eqb_eq in B1, B2. subst. unfold r. rewrite X1. rewrite X1 in EP. lra. }
    destruct (Req_dec (x p) 0) as [Z|NZ]; [rewrite Z in *; lra|]. destruct (Req_dec (x q) 0) as [Z|NZ']; [rewrite Z in *; lra|].
    assert (Jp : (p < j)%nat \/ p = i) by (destruct (Nat.lt_ge_cases p j) as [|G]; [auto|]; destruct (Nat.eq_dec p i); [auto|]; exfalso; apply NZ, X2; auto).
    assert (Jq : (q < j)%nat \/ q = i) by (destruct (Nat.lt_ge_cases q j) as [|G]; [auto|]; destruct (Nat.eq_dec q i); [auto|]; exfalso; apply NZ', X2; auto).
    assert (Bd : Rabs (A p q - gram m j p q) <= E).
    { destruct (Nat.le_ge_cases q p) as [O|O].
      - apply H; [exact Jp| |exact O]. destruct Jq as [Jq| ->]; [exact Jq|]. destruct Jp as [Jp| ->]; [lia|]. rewrite !Nat.eqb_refl in B. discriminate B.
      - rewrite (SY p q Lp Lq), GS. apply H; [exact Jq| |exact O]. destruct Jp as [Jp| ->]; [exact Jp|]. destruct Jq as [Jq| ->]; [lia|]. rewrite !Nat.eqb_refl in B. discriminate B. }
    replace (x p * A p q * x q) with (x p * gram m j p q * x q + (A p q - gram m j p q) * (x p * x q)) by ring.
    assert (Q : (A p q - gram m j p q) * (x p * x q) <= E * (Rabs (x p) * Rabs (x q))).
    { apply Rle_trans with (1 := Rle_abs _). rewrite Rabs_mult, (Rabs_mult (x p)). apply Rmult_le_compat_r; [apply Rmult_le_pos; apply Rabs_pos|exact Bd]. }
    lra. }
  rewrite form_gram in K. rewrite (total_zero _ j) in K by (intros k Hk; rewrite X3 by exact Hk; ring).
  assert (N1 : 1 <= norm2 n x). { unfold norm2. pose proof (total_term (fun k => x k * x k) n i (fun k _ => Rle_0_sqr (x k)) Li) as Q. cbn beta in Q. rewrite X1 in Q. lra. }
  pose proof (Rmult_le_compat_l _ _ _ C0 N1). nra.
Qed.

(** ** Matrices that are surely factored *)
Lemma grow_lin : forall m, INR m * e24 < 1 -> grow m * (1 - INR m * e24) <= 1.
Proof.
  intro m. induction m as [|m IH]; intro L; [unfold grow; cbn; lra|]. rewrite grow_S. rewrite S_INR in *. pose proof e24_pos as U. pose proof (grow_pos m) as G. pose proof (pos_INR m) as P. specialize (IH ltac:(lra)). set (x := INR m) in *. set (g := grow m) in *.
  apply Rle_trans with (2 := IH). replace ((1 + e24) * g * (1 - (x + 1) * e24)) with (g * (1 - x * e24) - g * (e24 * e24 * (x + 1))) by ring. assert (0 <= g * (e24 * e24 * (x + 1))) by (apply Rmult_le_pos; [lra|]; apply Rmult_le_pos; nra). lra.
Qed.
Lemma e24_bpow : e24 = bpow radix2 (-24). Proof. unfold e24. cbn. lra. Qed.

Section Sure.
Context (a : matrix) (n : nat) (D c : R).
Notation A := (fun i j => val (a i j)).
Notation N := (INR n).
Hypothesis Fa : forall i j, (j <= i)%nat -> (i < n)%nat -> finite (a i j) = true.
Hypothesis Ba : forall i j, (j <= i)%nat -> (i < n)%nat -> Rabs (val (a i j)) <= D.
Hypothesis SY : symmetric n A.
Hypothesis D0 : bpow radix2 (-60) <= D.
Hypothesis D1 : D <= bpow radix2 40.
Hypothesis DF : definite_by c n A.
Hypothesis Hc : 8 * N * (N + 4) * e24 * D <= c.

Lemma D_pos : 0 < D. Proof using D0. apply Rlt_le_trans with (2 := D0). apply bpow_gt_0. Qed.
Lemma diag_c : forall i, (i < n)%nat -> c <= val (a i i).
Proof using SY DF Hc D0.
  intros i L. pose proof (certificate A (fun _ _ => 0) n i 0 0 c ltac:(lia) L ltac:(intros; lia) ltac:(intros; lia) SY DF (Rle_refl 0) ltac:(intros; lia)) as H. rewrite Rmult_0_r, Rminus_0_r in H. unfold gram in H. cbn [total] in H.
  assert (0 <= c). { pose proof D_pos. pose proof e24_pos. pose proof (pos_INR n). apply Rle_trans with (2 := Hc). repeat (apply Rmult_le_pos; try lra). }
  specialize (H H0). lra.
Qed.
Definition ud : R := e24 * D.
Lemma ud_pos : 0 < ud. Proof using D0. apply Rmult_lt_0_compat; [exact e24_pos|exact D_pos]. Qed.
Lemma n_small : (0 < n)%nat -> 1 <= N /\ 8 * (N * (N + 4)) * e24 <= 1 /\ (N + 4) * e24 <= / 8 /\ N <= 2000.
Proof using All.
  intro L. assert (N1 : 1 <= N) by (change 1 with (INR 1); apply le_INR; lia). pose proof (diag_c 0 L) as C. pose proof (Ba 0 0 (Nat.le_refl 0) L) as B. pose proof (Rle_abs (val (a 0%nat 0%nat))) as R1. pose proof D_pos as P. pose proof e24_pos as U.
  assert (X : 8 * (N * (N + 4)) * e24 <= 1). { apply Rmult_le_reg_r with D; [exact P|]. rewrite Rmult_1_l. replace (8 * (N * (N + 4)) * e24 * D) with (8 * N * (N + 4) * e24 * D) by ring. lra. }
  split; [exact N1|]. split; [exact X|]. split.
  - assert (Y : (N + 4) * e24 <= N * (N + 4) * e24) by (apply Rmult_le_compat_r; [lra|]; nra). lra.
  - destruct (Rle_or_lt N 2000) as [|G]; [assumption|]. exfalso. assert (Y : 4000000 <= N * (N + 4)) by nra. assert (Z : 8 * 4000000 * e24 <= 8 * (N * (N + 4)) * e24) by (apply Rmult_le_compat_r; lra). unfold e24 in Z at 1. lra.
Qed.
Lemma grow_bound : (0 < n)%nat -> grow (n + 3) - 1 <= 1.15 * (N + 3) * e24 /\ grow n <= 2 /\ 0 <= grow (n + 3) - 1 <= / 6.
Proof using All.
  intro L. destruct (n_small L) as (N1 & _ & X & _). pose proof e24_pos as U. assert (E : INR (n + 3) = N + 3) by (rewrite plus_INR; replace (INR 3) with 3 by (cbn; lra); reflexivity). pose proof (grow_lin (n + 3) ltac:(rewrite E; lra)) as G. rewrite E in G. pose proof (grow_pos (n + 3)) as P. pose proof (grow_le n (n + 3) ltac:(lia)) as Q.
  set (g := grow (n + 3)) in *. set (y := (N + 3) * e24) in *. assert (Y : 0 <= y <= / 8) by (unfold y; nra).
  assert (B : g - 1 <= 1.15 * y) by nra. split; [unfold y in B; lra|]. split; [lra|]. lra.
Qed.
(** the underflow terms do not count *)
Lemma tiny_ud : 16000000 * tiny <= ud.
Proof using D0.
  unfold ud. apply Rle_trans with (e24 * bpow radix2 (-60)); [|apply Rmult_le_compat_l; [pose proof e24_pos; lra|exact D0]]. rewrite e24_bpow, <- bpow_plus. unfold tiny. apply Rle_trans with (bpow radix2 24 * bpow radix2 (-150)); [apply Rmult_le_compat_r; [apply bpow_ge_0|]; cbn; lra|]. rewrite <- bpow_plus. apply bpow_le. lia.
Qed.
Lemma tiny_e24 : 16000000 * tiny <= e24.
Proof. rewrite e24_bpow. unfold tiny. apply Rle_trans with (bpow radix2 24 * bpow radix2 (-150)); [apply Rmult_le_compat_r; [apply bpow_ge_0|]; cbn; lra|]. rewrite <- bpow_plus. apply bpow_le. lia. Qed.
Lemma under : forall w, (0 < n)%nat -> 0 <= w -> w * w <= 2 * D -> (N * grow n + 2 * w) * tiny <= / 1000 * ud.
Proof using All.
  intros w L W W2. destruct (n_small L) as (N1 & _ & _ & N2). destruct (grow_bound L) as (_ & G & _). pose proof (grow_pos n) as G1. pose proof tiny_pos as T. pose proof tiny_ud as T1. pose proof tiny_e24 as T2. pose proof D_pos as P.
  assert (X1 : N * grow n <= 2000 * 2) by (apply Rmult_le_compat; lra). assert (X2 : 2 * w <= 1 + 2 * D) by (pose proof (Rle_0_sqr (w - 1)) as Q; unfold Rsqr in Q; lra). assert (X3 : D * (16000000 * tiny) <= D * e24) by (apply Rmult_le_compat_l; lra). unfold ud in *. apply Rle_trans with ((4001 + 2 * D) * tiny); [apply Rmult_le_compat_r; lra|]. lra.
Qed.
Definition err : R := 5 * (N + 4) * ud.
Definition room : R := 3 * (N + 4) * ud.
Lemma room_c : (0 < n)%nat -> room <= c - N * err.
Proof using All.
  intro L. destruct (n_small L) as (N1 & _). pose proof ud_pos as P. unfold room, err. assert (X : 8 * N * (N + 4) * ud <= c) by (unfold ud; rewrite <- Rmult_assoc; exact Hc).
  assert (Y : 3 * (N + 4) * ud <= 3 * N * (N + 4) * ud) by (apply Rmult_le_compat_r; [lra|]; nra). lra.
Qed.

Lemma mass_le : forall l i j m m', (m <= m')%nat -> mass l i j m <= mass l i j m'.
Proof.
  intros l i j m m' L. induction m' as [|k IH]; [replace m with 0%nat by lia; lra|]. destruct (Nat.eq_dec m (S k)) as [->|]; [lra|]. rewrite mass_S. pose proof (IH ltac:(lia)). pose proof (Rmult_le_pos _ _ (Rabs_pos (val (l i k))) (Rabs_pos (val (l j k)))). lra.
Qed.
Lemma dot_size : forall l i j m, (0 < n)%nat -> (m <= n)%nat -> finite (dot l i j m) = true -> Rabs (val (dot l i j m) - sum l i j m) <= (grow (n + 3) - 1) * mass l i j m + / 1000 * ud.
Proof using All.
  intros l i j m L Lm F. pose proof (dot_close l i j m F) as C. apply Rle_trans with (1 := C). apply Rplus_le_compat.
  - apply Rmult_le_compat_r; [apply mass_nonneg|]. pose proof (grow_le (S m) (n + 3) ltac:(lia)). lra.
  - pose proof (under 0 L (Rle_refl 0) ltac:(pose proof D_pos; lra)) as X. apply Rle_trans with (2 := X). apply Rmult_le_compat_r; [pose proof tiny_pos; lra|]. rewrite Rmult_0_r, Rplus_0_r. apply Rmult_le_compat; [apply pos_INR|pose proof (grow_pos m); lra|apply le_INR; exact Lm|apply grow_le; exact Lm].
Qed.
Lemma ud_D : ud <= / 1000000 * D.
Proof using D0. unfold ud. apply Rmult_le_compat_r; [pose proof D_pos; lra|exact e24_small]. Qed.
Lemma big : forall x, Rabs x <= 10 * D -> Rabs x <= bpow radix2 127.
Proof using D1. intros x X. apply Rle_trans with (1 := X). apply Rle_trans with (bpow radix2 4 * bpow radix2 40); [apply Rmult_le_compat; [lra|pose proof (Rabs_pos x); lra|cbn; lra|exact D1]|]. rewrite <- bpow_plus. apply bpow_le. lia. Qed.
Lemma dot_fine : forall l i j m, (0 < n)%nat -> (m <= n)%nat -> (forall k, (k < m)%nat -> finite (l i k) = true /\ finite (l j k) = true) -> mass l i j m <= 2 * D -> finite (dot l i j m) = true.
Proof using All.
  intros l i j m L. induction m as [|m IH]; intros Lm F B; [reflexivity|]. cbn [dot]. pose proof (mass_le l i j m (S m) ltac:(lia)) as ML. rewrite mass_S in B, ML. pose proof (mass_nonneg l i j m) as MN. pose proof D_pos as P.
  assert (F0 : finite (dot l i j m) = true) by (apply IH; [lia|intros; apply F; lia|lra]). destruct (F m ltac:(lia)) as [F1 F2].
  assert (Bxy : Rabs (val (l i m) * val (l j m)) <= 2 * D) by (rewrite Rabs_mult; lra).
  destruct (mul_err (l i m) (l j m) _ _ (conj F1 eq_refl) (conj F2 eq_refl) ltac:(apply big; lra)) as (v & d & t & Fv & Hd & Ht & Ev).
  pose proof (dot_size l i j m L ltac:(lia) F0) as C. destruct (grow_bound L) as (_ & _ & G). pose proof ud_D as UD. pose proof ud_pos as UP. pose proof tiny_ud as TU. pose proof tiny_pos as TP.
  assert (S0 : Rabs (val (dot l i j m)) <= 3 * D).
  { replace (val (dot l i j m)) with ((val (dot l i j m) - sum l i j m) + sum l i j m) by ring. apply Rle_trans with (1 := Rabs_triang _ _). pose proof (sum_mass l i j m). nra. }
  assert (V0 : Rabs v <= 3 * D).
  { rewrite Ev. apply Rle_trans with (1 := Rabs_triang _ _). rewrite Rabs_mult. assert (Rabs (1 + d) <= 1.1) by (apply Rabs_le; apply Rabs_le_inv in Hd; pose proof e24_small; lra). pose proof (Rmult_le_compat _ _ _ _ (Rabs_pos _) (Rabs_pos _) Bxy H). lra. }
  refine (proj1 (fin_add 24 128 _ _ _ _ (conj F0 eq_refl) Fv _)). apply big. pose proof (Rabs_triang (val (dot l i j m)) v). lra.
Qed.

Definition part (l : matrix) (p q : nat) : Prop :=
  (forall k, (k < q)%nat -> finite (l p k) = true) /\ (forall k, (k < q)%nat -> Rabs (val (a p k) - sum l p k (S k)) <= err) /\ sum l p p q <= val (a p p) - room.
Definition full (l : matrix) (p : nat) : Prop :=
  part l p p /\ finite (l p p) = true /\ bpow radix2 (-76) <= val (l p p) /\ Rabs (val (a p p) - sum l p p (S p)) <= err /\ sum l p p (S p) <= 1.25 * D.

Lemma part_sum : forall l p q, (forall k, (k < q)%nat -> finite (l p k) = true) -> (forall k, (k < q)%nat -> Rabs (val (a p k) - sum l p k (S k)) <= err) ->
  (q <= p)%nat -> (p < n)%nat -> (forall i k, (i < k)%nat -> l i k = gof_Z 0) -> (forall i, (i < q)%nat -> full l i) -> part l p q.
Proof using All.
  intros l p q F E Lq Lp U R. split; [exact F|]. split; [exact E|]. assert (L : (0 < n)%nat) by lia. pose proof (room_c L) as RC. pose proof ud_pos as UP. pose proof (pos_INR n) as NP.
  assert (E0 : 0 <= err) by (unfold err; nra). assert (R0 : 0 <= room) by (unfold room; nra).
  assert (X : c - N * err <= val (a p p) - gram (fun i k => val (l i k)) q p p); [|unfold gram in X; unfold sum; lra].
  apply (certificate A (fun i k => val (l i k)) n p q err c Lq Lp); [intros i k Hk _; rewrite U by exact Hk; reflexivity| |exact SY|exact DF|exact E0| |lra].
  - intros k Hk. destruct (R k Hk) as (_ & _ & W & _). pose proof (bpow_gt_0 radix2 (-76)). lra.
  - intros i k Hi Hk Hki. change (gram (fun i k => val (l i k)) q i k) with (sum l i k q).
    replace (sum l i k q) with (sum l i k (S k)) by (symmetry; apply total_cut; [lia|]; intros h Hh; rewrite (U k h) by lia; rewrite zero_val; ring).
    destruct Hi as [Hi| ->]; [|apply E; exact Hk]. destruct (R i Hi) as ((_ & Ei & _) & _ & _ & Ed & _). destruct (Nat.eq_dec k i) as [->|NE]; [exact Ed|apply Ei; lia].
Qed.
Lemma sum_nonneg : forall l p m, 0 <= sum l p p m. Proof. intros. rewrite <- mass_self. apply mass_nonneg. Qed.
Lemma sum_le : forall l p m m', (m <= m')%nat -> sum l p p m <= sum l p p m'. Proof. intros. rewrite <- !mass_self. apply mass_le. assumption. Qed.
Lemma part_D : forall l p q, (p < n)%nat -> part l p q -> sum l p p q <= D.
Proof using All.
  intros l p q L (_ & _ & H). pose proof (Ba p p (Nat.le_refl p) L) as B. pose proof (Rle_abs (val (a p p))). pose proof ud_pos. pose proof (pos_INR n). assert (0 <= room) by (unfold room; nra). lra.
Qed.
Lemma cell_fine : forall l p q, (q < p)%nat -> (p < n)%nat -> part l p q -> full l q -> solved a l p q -> finite (l p q) = true /\ Rabs (val (a p q) - sum l p q (S q)) <= err.
Proof using All.
  intros l p q Lq Lp P R S. assert (L : (0 < n)%nat) by lia. pose proof (part_D l p q Lp P) as SP. destruct P as (F & _ & _). destruct R as ((Fq & _) & Fd & W & _ & SQ). pose proof (bpow_gt_0 radix2 (-76)) as B76. set (w := val (l q q)) in *.
  pose proof D_pos as P. pose proof ud_pos as UP. pose proof ud_D as UD. destruct (grow_bound L) as (G1 & _ & G). pose proof (sum_le l q q (Datatypes.S q) ltac:(lia)) as SL. pose proof (mass_half l p q q) as MH. pose proof (mass_nonneg l p q q) as MN.
  assert (Fs : finite (dot l p q q) = true) by (apply dot_fine; [exact L|lia|intros k Hk; split; [apply F; exact Hk|apply Fq; exact Hk]|lra]).
  pose proof (dot_size l p q q L ltac:(lia) Fs) as C. pose proof (sum_mass l p q q) as SM. pose proof (Ba p q ltac:(lia) Lp) as BA. set (s := val (dot l p q q)) in *.
  assert (S0 : Rabs s <= 1.5 * D). { replace s with ((s - sum l p q q) + sum l p q q) by ring. apply Rle_trans with (1 := Rabs_triang _ _). nra. }
  assert (AS : Rabs (val (a p q) - s) <= 2.5 * D). { unfold Rminus. apply Rle_trans with (1 := Rabs_triang _ _). rewrite Rabs_Ropp. lra. }
  destruct (sub_err (a p q) (dot l p q q) _ _ (conj (Fa p q ltac:(lia) Lp) eq_refl) (conj Fs eq_refl) ltac:(apply big; fold s; lra)) as (d & d1 & Fd1 & D1' & E1). fold s in E1.
  assert (DB : Rabs d <= 2.6 * D). { rewrite E1, Rabs_mult. assert (X : Rabs (1 + d1) <= 1.01) by (apply Rabs_le; apply Rabs_le_inv in D1'; pose proof e24_small; lra). pose proof (Rmult_le_compat _ _ _ _ (Rabs_pos _) (Rabs_pos _) AS X). lra. }
  assert (DW : Rabs (d / w) <= bpow radix2 127).
  { unfold Rdiv. rewrite Rabs_mult, (Rabs_pos_eq (/ w)) by (left; apply Rinv_0_lt_compat; lra). assert (IW : / w <= bpow radix2 76) by (replace (bpow radix2 76) with (/ bpow radix2 (-76)) by (rewrite <- bpow_opp; reflexivity); apply Rinv_le; lra).
    apply Rle_trans with (bpow radix2 4 * bpow radix2 40 * bpow radix2 76); [|rewrite <- !bpow_plus; apply bpow_le; lia]. apply Rmult_le_compat; [apply Rabs_pos|left; apply Rinv_0_lt_compat; lra| |exact IW]. apply Rle_trans with (1 := DB). apply Rmult_le_compat; [lra|lra|cbn; lra|exact D1]. }
  destruct (div_err (gsub (a p q) (dot l p q q)) (l q q) d w Fd1 (conj Fd eq_refl) ltac:(lra) DW) as (v & d2 & t & Fv & D2 & T & E2).
  pose proof S as S'. unfold solved in S. destruct (Nat.eqb_spec p q) as [E|_]; [lia|]. rewrite <- S in Fv. destruct Fv as [Fv Vv].
  split; [exact Fv|]. pose proof (off_close a l p q (n + 3) Lq ltac:(lia) S' Fv Fd ltac:(fold w; lra)) as O. fold w in O. apply Rle_trans with (1 := O). rewrite mass_S, Vv. fold w. clear O.
  assert (W2 : w * w <= 2 * D) by (pose proof (sum_S l q q q) as Q; fold w in Q; pose proof (sum_nonneg l q q); lra).
  pose proof (under w L ltac:(lra) W2) as UN. assert (UN' : (INR q * grow q + 2 * w) * tiny <= / 1000 * ud).
  { apply Rle_trans with (2 := UN). apply Rmult_le_compat_r; [pose proof tiny_pos; lra|]. apply Rplus_le_compat_r. apply Rmult_le_compat; [apply pos_INR|pose proof (grow_pos q); lra|apply le_INR; lia|apply grow_le; lia]. }
  assert (VW : Rabs v * Rabs w <= 2.7 * D).
  { rewrite <- Rabs_mult, E2. replace ((d / w * (1 + d2) + t) * w) with (d * (1 + d2) + t * w) by (field; lra). apply Rle_trans with (1 := Rabs_triang _ _). rewrite !Rabs_mult, (Rabs_pos_eq w) by lra.
    assert (X : Rabs (1 + d2) <= 1.01) by (apply Rabs_le; apply Rabs_le_inv in D2; pose proof e24_small; lra). pose proof (Rmult_le_compat _ _ _ _ (Rabs_pos _) (Rabs_pos _) DB X) as X1. pose proof (Rmult_le_compat_r w _ _ ltac:(lra) T) as X2. assert (X3 : 0 <= INR n * grow n * tiny) by (pose proof (pos_INR n); pose proof (grow_pos n); pose proof tiny_pos; apply Rmult_le_pos; [apply Rmult_le_pos; lra|lra]). assert (X4 : 2 * w * tiny <= / 1000 * ud) by lra. nra. }
  assert (MB : mass l p q q + Rabs v * Rabs w <= 4 * D) by lra. assert (MB0 : 0 <= mass l p q q + Rabs v * Rabs w) by (pose proof (Rmult_le_pos _ _ (Rabs_pos v) (Rabs_pos w)); lra).
  pose proof (Rmult_le_compat _ _ _ _ (proj1 G) MB0 G1 MB) as X. unfold err. assert (Y : 1.15 * (N + 3) * e24 * (4 * D) = 4.6 * (N + 3) * ud) by (unfold ud; lra). pose proof (pos_INR n). nra.
Qed.
Lemma diag_pos : forall l p, (p < n)%nat -> part l p p -> finite (diag a l p) = true /\ 0 < val (diag a l p).
Proof using All.
  intros l p Lp P. assert (L : (0 < n)%nat) by lia. pose proof (part_D l p p Lp P) as SP. destruct P as (F & _ & H).
  pose proof D_pos as P. pose proof ud_pos as UP. pose proof ud_D as UD. destruct (grow_bound L) as (G1 & _ & G). pose proof (sum_nonneg l p p) as SN.
  assert (Fs : finite (dot l p p p) = true) by (apply dot_fine; [exact L|lia|intros k Hk; split; apply F; exact Hk|rewrite mass_self; lra]).
  pose proof (dot_size l p p p L ltac:(lia) Fs) as C. rewrite mass_self in C. pose proof (Ba p p ltac:(lia) Lp) as BA. set (s := val (dot l p p p)) in *.
  assert (LT : room - (1.15 * (N + 3) * ud + / 1000 * ud) <= val (a p p) - s).
  { apply Rabs_le_inv in C. pose proof (Rmult_le_compat _ _ _ _ (proj1 G) SN G1 SP) as X. assert (Y : 1.15 * (N + 3) * e24 * D = 1.15 * (N + 3) * ud) by (unfold ud; lra). lra. }
  assert (PS : 0 < val (a p p) - s). { apply Rlt_le_trans with (2 := LT). unfold room. pose proof (pos_INR n). nra. }
  assert (SS : - D <= s). { apply Rabs_le_inv in C. pose proof (Rmult_le_compat _ _ _ _ (proj1 G) SN (proj2 G) SP). lra. }
  pose proof (Rle_abs (val (a p p))) as RA.
  destruct (sub_err (a p p) (dot l p p p) _ _ (conj (Fa p p ltac:(lia) Lp) eq_refl) (conj Fs eq_refl) ltac:(apply big; fold s; rewrite Rabs_pos_eq by lra; lra)) as (d & d1 & Fd1 & D1' & E1). fold s in E1. unfold diag. destruct Fd1 as [X1 X2]. split; [exact X1|]. rewrite X2, E1. apply Rmult_lt_0_compat; [exact PS|]. apply Rabs_le_inv in D1'. pose proof e24_small. lra.
Qed.
Lemma diag_fine : forall l p, (p < n)%nat -> part l p p -> solved a l p p -> full l p.
Proof using All.
  intros l p Lp P S. assert (L : (0 < n)%nat) by lia. destruct (diag_pos l p Lp P) as [Fd Pd]. pose proof S as S0. unfold solved in S. rewrite Nat.eqb_refl in S. destruct S as [G S].
  assert (Fl : finite (l p p) = true). { rewrite S. unfold gsqrt. rewrite (proj1 (proj2 (Bsqrt_correct 24 128 p24 e128 mode_NE (diag a l p)))). destruct (diag a l p) as [b|b| |b m e Hb]; try discriminate Fd; [reflexivity|]. destruct b; [|reflexivity]. exfalso. cbn in G. discriminate G. }
  destruct (diag_close a l p (n + 3) ltac:(lia) S0 Fl) as (P1 & _ & _ & C). split; [exact P|]. split; [exact Fl|]. split.
  - rewrite S in Fl. destruct (sqrt_inv _ G Fl) as (_ & _ & d & Hd & E). rewrite <- S in E. rewrite E. apply Rle_trans with (bpow radix2 (-75) * bpow radix2 (-1)); [rewrite <- bpow_plus; apply bpow_le; lia|].
    apply Rmult_le_compat; [apply bpow_ge_0|apply bpow_ge_0| |cbn; apply Rabs_le_inv in Hd; pose proof e24_small; lra]. rewrite <- (sqrt_square (bpow radix2 (-75))) by apply bpow_ge_0. apply sqrt_le_1_alt. rewrite <- bpow_plus. apply Rle_trans with (2 := least _ Pd). apply bpow_le. lia.
  - pose proof (Ba p p ltac:(lia) Lp) as BA. pose proof (Rle_abs (val (a p p))) as RA. destruct (grow_bound L) as (G1 & _ & G0). pose proof (sum_nonneg l p (Datatypes.S p)) as SN. pose proof (under 0 L (Rle_refl 0) ltac:(pose proof D_pos; lra)) as UN. pose proof ud_pos as UP. pose proof ud_D as UD. pose proof D_pos as DP.
    assert (UN' : INR p * grow p * tiny <= / 1000 * ud).
    { apply Rle_trans with (2 := UN). apply Rmult_le_compat_r; [pose proof tiny_pos; lra|]. rewrite Rmult_0_r, Rplus_0_r. apply Rmult_le_compat; [apply pos_INR|pose proof (grow_pos p); lra|apply le_INR; lia|apply grow_le; lia]. }
    set (T := sum l p p (Datatypes.S p)) in *. set (g := grow (n + 3) - 1) in *. assert (TB : T <= 1.25 * D) by (apply Rabs_le_inv in C; nra). split; [|exact TB].
    apply Rle_trans with (1 := C). pose proof (Rmult_le_compat _ _ _ _ (proj1 G0) SN G1 TB) as X. unfold err. assert (Y : 1.15 * (N + 3) * e24 * (1.25 * D) = 1.4375 * (N + 3) * ud) by (unfold ud; lra). pose proof (pos_INR n). nra.
Qed.
Lemma all_fine : forall l i j, (j <= i)%nat -> inv a i j l -> (i < n)%nat \/ i = n /\ j = 0%nat -> (forall p, (p < i)%nat -> full l p) /\ ((i < n)%nat -> part l i j).
Proof using All.
  intros l i j Lj [I1 I2] Li.
  assert (U : forall p k, (p < k)%nat -> l p k = gof_Z 0) by (intros p k H; apply I2; lia).
  assert (RW : forall p q, (p < n)%nat -> (q <= p)%nat -> (p < i)%nat \/ p = i /\ (q <= j)%nat -> (forall p', (p' < p)%nat -> full l p') -> part l p q).
  { intros p q Lp. induction q as [|q IH]; intros Lq B R; [apply part_sum; try lia; try (intros; lia); assumption|].
    pose proof (IH ltac:(lia) ltac:(lia) R) as P. destruct (cell_fine l p q ltac:(lia) Lp P (R q ltac:(lia)) (I1 p q ltac:(lia) ltac:(unfold before; lia))) as [Fn En]. destruct P as (F & E & _).
    apply part_sum; [| |lia|exact Lp|exact U|intros; apply R; lia]; intros k Hk; (destruct (Nat.eq_dec k q) as [->|]; [assumption|]); [apply F; lia|apply E; lia]. }
  assert (R : forall p, (p < i)%nat -> full l p).
  { intro p. induction p as [p IH] using (well_founded_induction lt_wf). intro Hp. apply diag_fine; [lia| |apply I1; [lia|left; exact Hp]]. apply RW; [lia|lia|auto|]. intros; apply IH; lia. }
  split; [exact R|]. intro L. apply RW; [exact L|exact Lj|auto|exact R].
Qed.
Theorem surely : exists l, cholesky_decomposition n n a = ROk l /\ forall p q, (p < n)%nat -> finite (l p q) = true.
Proof using All.
  pose proof (cholesky_inv n a) as C. destruct (cholesky_decomposition n n a) as [l|] eqn:E.
  - exists l. split; [reflexivity|]. intros p q Lp. destruct (all_fine l n 0 ltac:(lia) C ltac:(auto)) as [R _]. apply (factor_finite a l n 0 C); [|exact Lp]. intros k Hk. exact (proj1 (proj2 (R k Hk))).
  - exfalso. destruct C as (j & l & Lj & I & G). destruct (all_fine l j j (Nat.le_refl j) I (or_introl Lj)) as [_ P]. destruct (diag_pos l j Lj (P Lj)) as [F X]. apply (fin_le 24 128 (diag a l j) (gof_Z 0) _ _ (conj F eq_refl) (conj eq_refl zero_val)) in G. lra.
Qed.
End Sure.
