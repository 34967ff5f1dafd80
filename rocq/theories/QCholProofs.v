(** QCholProofs.v -- Cholesky: what the loops compute, its rounding errors, and when they succeed. *)
From Coq Require Import ZArith Bool List Lia Reals Lra.
From Flocq Require Import Core Relative IEEE754.BinarySingleNaN.
From Verif Require Import Base FloatModel FloatFacts KrxModel QFloatErr QCholModel QCholSpec.
Import ListNotations.
Open Scope nat_scope.

(** ** The loops *)
Definition diag (a l : matrix) (i : nat) : f32 := gsub (a i i) (dot l i i i).
Definition solved (a l : matrix) (p q : nat) : Prop :=
  if p =? q then gle (diag a l p) (gof_Z 0) = false /\ l p p = gsqrt (diag a l p) else l p q = gdiv (gsub (a p q) (dot l p q q)) (l q q).
Definition before (i j p q : nat) : Prop := p < i \/ p = i /\ q < j.
Definition inv (a : matrix) (i j : nat) (l : matrix) : Prop :=
  (forall p q, q <= p -> before i j p q -> solved a l p q) /\ (forall p q, ~ (q <= p /\ before i j p q) -> l p q = gof_Z 0).

Lemma dot_ext : forall l l' i j m, (forall k, k < m -> l i k = l' i k /\ l j k = l' j k) -> dot l i j m = dot l' i j m.
Proof.
  induction m as [|m IH]; intro H; [reflexivity|]. cbn [dot]. rewrite IH by (intros; apply H; lia). destruct (H m ltac:(lia)) as [-> ->]. reflexivity.
Qed.
Lemma put_at : forall l i j v, put l i j v i j = v. Proof. intros. unfold put. rewrite !Nat.eqb_refl. reflexivity. Qed.
Lemma put_other : forall l i j v p q, p <> i \/ q <> j -> put l i j v p q = l p q.
Proof. intros l i j v p q H. unfold put. destruct (Nat.eqb_spec p i), (Nat.eqb_spec q j); try reflexivity. exfalso. lia. Qed.
Lemma solved_ext : forall a l l' p q, q <= p -> (forall k, k <= q -> l p k = l' p k /\ l q k = l' q k) -> solved a l p q -> solved a l' p q.
Proof.
  intros a l l' p q L H S. unfold solved, diag in *. destruct (Nat.eqb_spec p q) as [->|N].
  - rewrite <- (dot_ext l l') by (intros k Hk; apply H; lia). destruct (H q ltac:(lia)) as [<- _]. exact S.
  - rewrite <- (dot_ext l l') by (intros k Hk; apply H; lia). destruct (H q ltac:(lia)) as [<- <-]. exact S.
Qed.
Lemma cell_inv : forall a l i j, j <= i -> inv a i j l ->
  match cell a l i j with ROk l' => inv a i (S j) l' | RErr => i = j /\ gle (diag a l i) (gof_Z 0) = true end.
Proof.
  intros a l i j L [I1 I2].
  assert (K : forall v, (forall k, k < j -> put l i j v i k = l i k) /\ (forall p k, p <> i -> put l i j v p k = l p k)) by (intro v; split; intros; apply put_other; lia).
  assert (G : forall v, (if i =? j then gle (diag a l i) (gof_Z 0) = false /\ v = gsqrt (diag a l i) else v = gdiv (gsub (a i j) (dot l i j j)) (l j j)) -> inv a i (S j) (put l i j v)).
  { intros v V. destruct (K v) as [K1 K2]. split.
    - intros p q Q B. destruct (Nat.eq_dec p i) as [->|N]; [destruct (Nat.eq_dec q j) as [->|M]|].
      + unfold solved, diag in *. destruct (Nat.eqb_spec i j) as [E|E].
        * subst j. rewrite (dot_ext _ l) by (intros k Hk; rewrite K1 by exact Hk; auto). rewrite put_at. exact V.
        * rewrite (dot_ext _ l) by (intros k Hk; rewrite K1, K2 by lia; auto). rewrite put_at, K2 by lia. exact V.
      + apply (solved_ext a l); [exact Q| |apply I1; [exact Q|unfold before in *; lia]]. intros k Hk. assert (q < j) by (unfold before in B; lia). split; [rewrite K1 by lia; reflexivity|]. destruct (Nat.eq_dec q i) as [->|N']; [rewrite K1 by lia; reflexivity|rewrite K2 by lia; reflexivity].
      + apply (solved_ext a l); [exact Q| |apply I1; [exact Q|unfold before in *; lia]]. intros k Hk. rewrite !K2 by (unfold before in B; lia). auto.
    - intros p q N. rewrite put_other by (unfold before in N; lia). apply I2. unfold before in *. lia. }
  unfold cell. change (gsub (a i i) (dot l i j j)) with (gsub (a i i) (dot l i j j)). destruct (Nat.eqb_spec i j) as [E|E].
  - subst j. fold (diag a l i). destruct (gle (diag a l i) (gof_Z 0)) eqn:D; [auto|]. apply (G (gsqrt (diag a l i))). auto.
  - apply (G (gdiv (gsub (a i j) (dot l i j j)) (l j j))). reflexivity.
Qed.
Lemma cells_inv : forall a i n j l, j + n = S i -> inv a i j l ->
  match cells a i (seq j n) l with ROk l' => inv a i (S i) l' | RErr => exists l0, inv a i i l0 /\ gle (diag a l0 i) (gof_Z 0) = true end.
Proof.
  intros a i n. induction n as [|n IH]; intros j l E I.
  - cbn [seq cells]. replace (S i) with j by lia. exact I.
  - cbn [seq cells]. pose proof (cell_inv a l i j ltac:(lia) I) as C. destruct (cell a l i j) as [l'|].
    + apply IH; [lia|exact C].
    + destruct C as [-> C]. exists l. auto.
Qed.
Lemma lines_inv : forall a n i l, inv a i 0 l ->
  match lines a (seq i n) l with ROk l' => inv a (i + n) 0 l' | RErr => exists j l0, j < i + n /\ inv a j j l0 /\ gle (diag a l0 j) (gof_Z 0) = true end.
Proof.
  intros a n. induction n as [|n IH]; intros i l I.
  - cbn [seq lines]. rewrite Nat.add_0_r. exact I.
  - cbn [seq lines]. pose proof (cells_inv a i (S i) 0 l eq_refl I) as C. cbn [seq] in C. destruct (cells a i (0 :: seq 1 i) l) as [l'|].
    + specialize (IH (S i) l'). replace (S i + n) with (i + S n) in IH by lia. apply IH. destruct C as [C1 C2]. split.
      * intros p q Q B. apply C1; [exact Q|]. unfold before in *. lia.
      * intros p q N. apply C2. unfold before in *. lia.
    + destruct C as (l0 & C1 & C2). exists i, l0. split; [lia|]. auto.
Qed.
Lemma start_inv : forall a, inv a 0 0 zeros.
Proof. intro a. split; [intros p q Q B; unfold before in B; lia|reflexivity]. Qed.
Lemma cholesky_inv : forall n a, match cholesky_decomposition n n a with ROk l => inv a n 0 l | RErr => exists j l, j < n /\ inv a j j l /\ gle (diag a l j) (gof_Z 0) = true end.
Proof.
  intros n a. unfold cholesky_decomposition. rewrite Nat.eqb_refl. cbn [negb]. exact (lines_inv a n 0 zeros (start_inv a)).
Qed.
(** two runs on matrices that agree in and below the diagonal *)
Lemma lower_only : forall a a' nr nc, (forall i j, j <= i -> i < nr -> a i j = a' i j) -> cholesky_decomposition nr nc a = cholesky_decomposition nr nc a'.
Proof.
  intros a a' nr nc H. unfold cholesky_decomposition. destruct (negb (nr =? nc)); [reflexivity|].
  assert (C : forall i j l, i < nr -> j <= i -> cell a l i j = cell a' l i j) by (intros i j l Hi Hj; unfold cell; rewrite (H i i), (H i j) by lia; reflexivity).
  assert (D : forall i js l, i < nr -> (forall j, In j js -> j <= i) -> cells a i js l = cells a' i js l).
  { intros i js. induction js as [|j js IH]; intros l Hi Hj; [reflexivity|]. cbn [cells]. rewrite (C i j l Hi (Hj j (or_introl eq_refl))). destruct (cell a' l i j); [|reflexivity]. apply IH; [exact Hi|]. intros; apply Hj; right; assumption. }
  assert (F : forall is l, (forall i, In i is -> i < nr) -> lines a is l = lines a' is l).
  { intro is. induction is as [|i is IH]; intros l Hi; [reflexivity|]. cbn [lines]. rewrite (D i (seq 0 (S i)) l (Hi i (or_introl eq_refl))) by (intros j Hj; apply in_seq in Hj; lia). destruct (cells a' i (seq 0 (S i)) l); [|reflexivity]. apply IH. intros; apply Hi; right; assumption. }
  apply F. intros i Hi. apply in_seq in Hi. lia.
Qed.

(** ** Rounding, read from a finite result *)
Open Scope R_scope.
Notation val := (@B2R 24 128).
Notation finite := (@is_finite 24 128).
Lemma over_inf : forall b, @is_finite_SF (binary_overflow 24 128 mode_NE b) = false. Proof. intros []; reflexivity. Qed.
Lemma not_over : forall (z : f32) b, B2SF z = binary_overflow 24 128 mode_NE b -> finite z = true -> False.
Proof. intros z b E F. rewrite <- is_finite_SF_B2SF, E in F. rewrite over_inf in F. discriminate F. Qed.
Lemma add_inv : forall x y : f32, finite (gadd x y) = true -> finite x = true /\ finite y = true /\ exists d, Rabs d <= e24 /\ val (gadd x y) = (val x + val y) * (1 + d).
Proof.
  intros x y F. assert (Q : finite x = true /\ finite y = true).
  { destruct x as [sx|sx| |sx mx ex Hx], y as [sy|sy| |sy my ey Hy]; try (split; reflexivity); try discriminate F; cbn in F; try (destruct (Bool.eqb sx sy); discriminate F). }
  destruct Q as [Fx Fy]. split; [exact Fx|]. split; [exact Fy|]. destruct (rnd_sum x y) as (d & D & E). exists d. split; [exact D|]. rewrite <- E.
  pose proof (Bplus_correct 24 128 p24 e128 mode_NE x y Fx Fy) as C. cbn [round_mode] in C. destruct (Rlt_bool _ _); [exact (proj1 C)|]. exfalso. exact (not_over _ _ (proj1 C) F).
Qed.
Lemma sub_inv : forall x y : f32, finite (gsub x y) = true -> finite x = true /\ finite y = true /\ exists d, Rabs d <= e24 /\ val (gsub x y) = (val x - val y) * (1 + d).
Proof.
  intros x y F. assert (Q : finite x = true /\ finite y = true).
  { destruct x as [sx|sx| |sx mx ex Hx], y as [sy|sy| |sy my ey Hy]; try (split; reflexivity); try discriminate F; cbn in F; try (destruct (Bool.eqb sx (negb sy)); discriminate F). }
  destruct Q as [Fx Fy]. split; [exact Fx|]. split; [exact Fy|]. destruct (rnd_sum x (gneg y)) as (d & D & E). unfold gneg in E. rewrite B2R_Bopp in E. exists d. split; [exact D|]. change (val x - val y) with (val x + - val y). rewrite <- E.
  pose proof (Bminus_correct 24 128 p24 e128 mode_NE x y Fx Fy) as C. cbn [round_mode] in C. destruct (Rlt_bool _ _); [exact (proj1 C)|]. exfalso. exact (not_over _ _ (proj1 C) F).
Qed.
Lemma mul_inv : forall x y : f32, finite (gmul x y) = true -> finite x = true /\ finite y = true /\ exists d t, Rabs d <= e24 /\ Rabs t <= tiny /\ val (gmul x y) = val x * val y * (1 + d) + t.
Proof.
  intros x y F. assert (Q : finite x = true /\ finite y = true).
  { destruct x as [sx|sx| |sx mx ex Hx], y as [sy|sy| |sy my ey Hy]; try (split; reflexivity); discriminate F. }
  destruct Q as [Fx Fy]. split; [exact Fx|]. split; [exact Fy|]. destruct (rnd_any (val x * val y)) as (d & t & D & T & E). exists d, t. split; [exact D|]. split; [exact T|]. rewrite <- E.
  pose proof (Bmult_correct 24 128 p24 e128 mode_NE x y) as C. cbn [round_mode] in C. destruct (Rlt_bool _ _); [exact (proj1 C)|]. exfalso. exact (not_over _ _ C F).
Qed.
Lemma div_inv : forall x y : f32, finite y = true -> val y <> 0 -> finite (gdiv x y) = true -> finite x = true /\ exists d t, Rabs d <= e24 /\ Rabs t <= tiny /\ val (gdiv x y) = val x / val y * (1 + d) + t.
Proof.
  intros x y Fy N F. assert (Q : finite x = true).
  { destruct x as [sx|sx| |sx mx ex Hx], y as [sy|sy| |sy my ey Hy]; try reflexivity; try discriminate F. }
  split; [exact Q|]. destruct (rnd_any (val x / val y)) as (d & t & D & T & E). exists d, t. split; [exact D|]. split; [exact T|]. rewrite <- E.
  pose proof (Bdiv_correct 24 128 p24 e128 mode_NE x y N) as C. cbn [round_mode] in C. destruct (Rlt_bool _ _); [exact (proj1 C)|]. exfalso. exact (not_over _ _ C F).
Qed.
Lemma least : forall x : f32, 0 < val x -> bpow radix2 (-149) <= val x.
Proof.
  intros x P. pose proof (fmt_B2R 24 128 x) as G. destruct (Rle_or_lt (bpow radix2 (-149)) (val x)) as [L|L]; [exact L|]. exfalso. apply (Rlt_irrefl 0).
  assert (Z : val x = 0); [|lra]. rewrite <- (rnd_B2R 24 128 x). unfold rnd. change (SpecFloat.fexp 24 128) with (FLT_exp (-149) 24).
  rewrite <- (round_generic radix2 (FLT_exp (-149) 24) Zfloor (val x)) by exact G. rewrite (round_DN_small_pos radix2 (FLT_exp (-149) 24) (val x) (mag radix2 (val x))); [apply round_0; apply valid_rnd_N| |].
  + destruct (mag radix2 (val x)) as [m Hm]. cbn [mag_val]. specialize (Hm ltac:(lra)). rewrite Rabs_pos_eq in Hm by lra. exact Hm.
  + unfold FLT_exp. apply Z.le_trans with (-149)%Z; [|lia]. apply mag_le_bpow; [lra|]. rewrite Rabs_pos_eq by lra. exact L.
Qed.
Lemma rnd_sqrt : forall x : f32, 0 < val x -> exists d, Rabs d <= e24 /\ rnd 24 128 (sqrt (val x)) = sqrt (val x) * (1 + d).
Proof.
  intros x P. assert (Hs : bpow radix2 (-149 + 24 - 1) <= Rabs (sqrt (val x))).
  { rewrite Rabs_pos_eq by apply sqrt_ge_0. apply Rle_trans with (sqrt (bpow radix2 (-149))).
    - change (-149 + 24 - 1)%Z with (-126)%Z. rewrite <- (sqrt_square (bpow radix2 (-126))) by apply bpow_ge_0. apply sqrt_le_1_alt. rewrite <- bpow_plus. apply bpow_le. lia.
    - apply sqrt_le_1_alt. apply least. exact P. }
  destruct (relative_error_N_FLT_ex radix2 (-149) 24 ltac:(reflexivity) (fun z => negb (Z.even z)) (sqrt (val x)) Hs) as (d & D & E).
  exists d. split; [|exact E]. apply Rle_trans with (1 := D). unfold e24. change (bpow radix2 (- (24) + 1)) with (/ 8388608). lra.
Qed.
Lemma sqrt_inv : forall x : f32, gle x (gof_Z 0) = false -> finite (gsqrt x) = true -> finite x = true /\ 0 < val x /\ exists d, Rabs d <= e24 /\ val (gsqrt x) = sqrt (val x) * (1 + d).
Proof.
  intros x G F. change (gof_Z 0 : f32) with (B754_zero false : f32) in G. assert (P : finite x = true /\ 0 < val x).
  { destruct x as [s|s| |s m e H]; try discriminate F; try (destruct s; discriminate). destruct s; [discriminate F|]. split; [reflexivity|]. apply F2R_gt_0. reflexivity. }
  destruct P as [Fx P]. split; [exact Fx|]. split; [exact P|]. destruct (rnd_sqrt x P) as (d & D & E). exists d. split; [exact D|]. rewrite <- E.
  exact (proj1 (Bsqrt_correct 24 128 p24 e128 mode_NE x)).
Qed.

(** ** Sums *)
Lemma total_ext : forall f g n, (forall k, (k < n)%nat -> f k = g k) -> total f n = total g n.
Proof. induction n as [|n IH]; intro H; [reflexivity|]. cbn [total]. rewrite IH by (intros; apply H; lia). rewrite (H n) by lia. reflexivity. Qed.
Lemma total_plus : forall f g n, total (fun k => f k + g k) n = total f n + total g n.
Proof. induction n as [|n IH]; cbn [total]; [lra|]. rewrite IH. lra. Qed.
Lemma total_scal : forall c f n, total (fun k => c * f k) n = c * total f n.
Proof. induction n as [|n IH]; cbn [total]; [lra|]. rewrite IH. lra. Qed.
Lemma total_scal_r : forall c f n, total (fun k => f k * c) n = total f n * c.
Proof. induction n as [|n IH]; cbn [total]; [lra|]. rewrite IH. lra. Qed.
Lemma total_le : forall f g n, (forall k, (k < n)%nat -> f k <= g k) -> total f n <= total g n.
Proof. induction n as [|n IH]; intro H; cbn [total]; [lra|]. pose proof (IH ltac:(intros; apply H; lia)). pose proof (H n ltac:(lia)). lra. Qed.
Lemma total_zero : forall f n, (forall k, (k < n)%nat -> f k = 0) -> total f n = 0.
Proof. induction n as [|n IH]; intro H; cbn [total]; [reflexivity|]. rewrite IH by (intros; apply H; lia). rewrite (H n) by lia. lra. Qed.
Lemma total_nonneg : forall f n, (forall k, (k < n)%nat -> 0 <= f k) -> 0 <= total f n.
Proof. induction n as [|n IH]; intro H; cbn [total]; [lra|]. pose proof (IH ltac:(intros; apply H; lia)). pose proof (H n ltac:(lia)). lra. Qed.
Lemma total_abs : forall f n, Rabs (total f n) <= total (fun k => Rabs (f k)) n.
Proof. induction n as [|n IH]; cbn [total]; [rewrite Rabs_R0; lra|]. pose proof (Rabs_triang (total f n) (f n)). lra. Qed.
Lemma total_swap : forall (f : nat -> nat -> R) n m, total (fun i => total (fun j => f i j) m) n = total (fun j => total (fun i => f i j) n) m.
Proof.
  intros f n m. induction n as [|n IH]; cbn [total]; [symmetry; apply total_zero; reflexivity|]. rewrite IH. rewrite <- total_plus. reflexivity.
Qed.
(** a sum beyond the support *)
Lemma total_cut : forall f m n, (m <= n)%nat -> (forall k, (m <= k < n)%nat -> f k = 0) -> total f n = total f m.
Proof.
  intros f m n L H. induction n as [|n IH]; [replace m with 0%nat by lia; reflexivity|]. destruct (Nat.eq_dec m (S n)) as [->|N]; [reflexivity|]. cbn [total]. rewrite IH by (try lia; intros; apply H; lia). rewrite H by lia. lra.
Qed.
(** a sum with one term *)
Lemma total_one : forall f n i, (i < n)%nat -> (forall k, (k < n)%nat -> k <> i -> f k = 0) -> total f n = f i.
Proof.
  intros f n i L H. induction n as [|n IH]; [lia|]. cbn [total]. destruct (Nat.eq_dec i n) as [->|N].
  - rewrite (total_zero f n) by (intros; apply H; lia). lra.
  - rewrite IH by (try lia; intros; apply H; lia). rewrite (H n) by lia. lra.
Qed.
Lemma total_term : forall f n i, (forall k, (k < n)%nat -> 0 <= f k) -> (i < n)%nat -> f i <= total f n.
Proof.
  intros f n i H L. induction n as [|n IH]; [lia|]. cbn [total]. destruct (Nat.eq_dec i n) as [->|N].
  - pose proof (total_nonneg f n ltac:(intros; apply H; lia)). lra.
  - pose proof (IH ltac:(intros; apply H; lia) ltac:(lia)). pose proof (H n ltac:(lia)). lra.
Qed.
Lemma total_const : forall c n, total (fun _ => c) n = INR n * c.
Proof. induction n as [|n IH]; [cbn; lra|]. rewrite S_INR. cbn [total]. rewrite IH. lra. Qed.
Lemma amgm : forall a b, Rabs a * Rabs b <= (a * a + b * b) / 2.
Proof.
  intros a b. assert (H : forall z, z * z = Rabs z * Rabs z) by (intro z; rewrite <- Rabs_mult; symmetry; apply Rabs_pos_eq; apply Rle_0_sqr).
  rewrite (H a), (H b). pose proof (Rle_0_sqr (Rabs a - Rabs b)) as Q. unfold Rsqr in Q. lra.
Qed.
(** (sum of |x|)^2 <= n |x|^2 *)
Lemma square_total : forall x n, total (fun i => total (fun j => Rabs (x i) * Rabs (x j)) n) n <= INR n * norm2 n x.
Proof.
  intros x n. apply Rle_trans with (total (fun i => total (fun j => (x i * x i + x j * x j) / 2) n) n).
  - apply total_le. intros i _. apply total_le. intros j _. apply amgm.
  - right. unfold norm2. transitivity (total (fun i => INR n * (x i * x i) / 2 + total (fun j => x j * x j) n / 2) n).
    + apply total_ext. intros i _. transitivity (total (fun j => x i * x i / 2 + x j * x j / 2) n); [apply total_ext; intros; lra|]. rewrite total_plus, total_const. unfold Rdiv at 2. rewrite total_scal_r. lra.
    + rewrite total_plus, total_const. transitivity (total (fun k => INR n / 2 * (x k * x k)) n + INR n * (total (fun j => x j * x j) n / 2)); [f_equal; apply total_ext; intros; lra|]. rewrite total_scal. lra.
Qed.

(** ** The error of a sum of products *)
Definition grow (m : nat) : R := (1 + e24) ^ m.
Lemma grow_pos : forall m, 1 <= grow m.
Proof. intro m. unfold grow. apply pow_R1_Rle. pose proof e24_pos. lra. Qed.
Lemma grow_S : forall m, grow (S m) = (1 + e24) * grow m. Proof. reflexivity. Qed.
Lemma grow_le : forall m m', (m <= m')%nat -> grow m <= grow m'.
Proof. intros. unfold grow. apply Rle_pow; [pose proof e24_pos; lra|assumption]. Qed.
(** the sum of |l_ik| |l_jk| *)
Definition mass (l : matrix) (i j m : nat) : R := total (fun k => Rabs (val (l i k)) * Rabs (val (l j k))) m.
Definition sum (l : matrix) (i j m : nat) : R := total (fun k => val (l i k) * val (l j k)) m.
Lemma mass_nonneg : forall l i j m, 0 <= mass l i j m.
Proof. intros. apply total_nonneg. intros. apply Rmult_le_pos; apply Rabs_pos. Qed.
Lemma sum_mass : forall l i j m, Rabs (sum l i j m) <= mass l i j m.
Proof. intros. unfold sum, mass. apply Rle_trans with (1 := total_abs _ _). apply total_le. intros. rewrite Rabs_mult. lra. Qed.
Lemma mass_self : forall l i m, mass l i i m = sum l i i m.
Proof. intros. unfold mass, sum. apply total_ext. intros. rewrite <- Rabs_mult. apply Rabs_pos_eq. apply Rle_0_sqr. Qed.
Lemma mass_half : forall l i j m, mass l i j m <= (sum l i i m + sum l j j m) / 2.
Proof.
  intros. unfold mass, sum. apply Rle_trans with (total (fun k => (val (l i k) * val (l i k) + val (l j k) * val (l j k)) * / 2) m); [|right; rewrite total_scal_r, total_plus; reflexivity].
  apply total_le. intros k _. pose proof (amgm (val (l i k)) (val (l j k))). lra.
Qed.
Lemma dot_finite : forall l i j m, finite (dot l i j m) = true -> forall k, (k < m)%nat -> finite (l i k) = true /\ finite (l j k) = true.
Proof.
  intros l i j m. induction m as [|m IH]; intros F k L; [lia|]. cbn [dot] in F. destruct (add_inv _ _ F) as (F1 & F2 & _). destruct (mul_inv _ _ F2) as (F3 & F4 & _). destruct (Nat.eq_dec k m) as [->|N]; [auto|]. apply IH; [exact F1|lia].
Qed.
Lemma zero_val : val (gof_Z 0) = 0. Proof. reflexivity. Qed.
Lemma dot_close : forall l i j m, finite (dot l i j m) = true -> Rabs (val (dot l i j m) - sum l i j m) <= (grow (S m) - 1) * mass l i j m + INR m * grow m * tiny.
Proof.
  intros l i j m. induction m as [|m IH]; intro F.
  - cbn [dot]. rewrite zero_val. unfold sum, mass. cbn [total INR]. rewrite Rminus_0_r, Rabs_R0. lra.
  - cbn [dot] in *. destruct (add_inv _ _ F) as (F1 & F2 & d & D & ->). destruct (mul_inv _ _ F2) as (F3 & F4 & d' & t & D' & T & ->). specialize (IH F1).
    rewrite S_INR. unfold sum, mass in *. cbn [total]. fold (sum l i j m) in *. fold (mass l i j m) in *. rewrite (grow_S (S m)), !(grow_S m) in *.
    set (s := val (dot l i j m)) in *. set (x := val (l i m)). set (y := val (l j m)). rewrite <- Rabs_mult. set (p := x * y) in *.
    pose proof (sum_mass l i j m) as SM. pose proof (mass_nonneg l i j m) as MP. set (SS := sum l i j m) in *. set (T0 := mass l i j m) in *. pose proof e24_pos as E0. pose proof tiny_pos as T1. set (g := grow m) in *. assert (G1 : 1 <= g) by apply grow_pos. pose proof (pos_INR m) as Pm. set (k := INR m) in *.
    replace ((s + (p * (1 + d') + t)) * (1 + d) - (SS + p)) with ((s - SS + (p * d' + t)) * (1 + d) + (SS + p) * d) by ring.
    apply Rle_trans with (1 := Rabs_triang _ _). rewrite !Rabs_mult. assert (D1 : Rabs (1 + d) <= 1 + e24) by (apply Rabs_le; apply Rabs_le_inv in D; lra).
    assert (Q1 : Rabs (s - SS + (p * d' + t)) <= ((1 + e24) * g - 1) * T0 + k * g * tiny + (e24 * Rabs p + tiny)).
    { apply Rle_trans with (1 := Rabs_triang _ _). pose proof (Rabs_triang (p * d') t) as Q. rewrite Rabs_mult in Q. pose proof (Rmult_le_compat_l (Rabs p) _ _ (Rabs_pos p) D'). lra. }
    assert (Q2 : Rabs (SS + p) <= T0 + Rabs p) by (pose proof (Rabs_triang SS p); lra).
    pose proof (Rabs_pos p) as Pp. set (q := Rabs p) in *.
    pose proof (Rmult_le_compat _ _ _ _ (Rabs_pos _) (Rabs_pos _) Q1 D1) as R1. pose proof (Rmult_le_compat _ _ _ _ (Rabs_pos _) (Rabs_pos _) Q2 D) as R2.
    apply Rle_trans with (1 := Rplus_le_compat _ _ _ _ R1 R2).
    assert (X1 : q * ((1 + e24) * (1 + e24)) <= q * ((1 + e24) * ((1 + e24) * g))) by (apply Rmult_le_compat_l; [exact Pp|]; rewrite <- Rmult_assoc; rewrite <- (Rmult_1_r ((1 + e24) * (1 + e24))) at 1; apply Rmult_le_compat_l; [nra|exact G1]).
    assert (X2 : tiny * (1 + e24) <= tiny * ((1 + e24) * g)) by (apply Rmult_le_compat_l; [lra|]; rewrite <- (Rmult_1_r (1 + e24)) at 1; apply Rmult_le_compat_l; lra).
    ring_simplify. ring_simplify in X1. ring_simplify in X2. nra.
Qed.

(** ** The error of a cell *)
Lemma grow_4 : forall m, (4 <= m)%nat -> 4 * e24 <= grow m - 1.
Proof. intros m L. pose proof (grow_le 4 m L) as H. unfold grow in H at 1. cbn [pow] in H. pose proof e24_pos. nra. Qed.
Lemma near2 : forall a b, Rabs a <= 1.001 * e24 -> Rabs b <= 1.001 * e24 -> exists z, Rabs z <= 2.01 * e24 /\ (1 + a) * (1 + b) = 1 + z.
Proof.
  intros a b A B. destruct (err_mul 1.001 1.001 a b ltac:(lra) ltac:(lra) A B) as (z & Z & E). exists z. split; [|exact E]. apply Rle_trans with (1 := Z). pose proof e24_pos. lra.
Qed.
Lemma near3 : forall a b, Rabs a <= 2.01 * e24 -> Rabs b <= 1.001 * e24 -> exists z, Rabs z <= 3.1 * e24 /\ (1 + a) * (1 + b) = 1 + z.
Proof.
  intros a b A B. destruct (err_mul 2.01 1.001 a b ltac:(lra) ltac:(lra) A B) as (z & Z & E). exists z. split; [|exact E]. apply Rle_trans with (1 := Z). pose proof e24_pos. lra.
Qed.
Lemma e24_small : e24 <= / 1000000. Proof. unfold e24. lra. Qed.
Lemma inv_ne : forall d, Rabs d <= e24 -> 1 + d <> 0.
Proof. intros d D. apply Rabs_le_inv in D. pose proof e24_small. lra. Qed.
Lemma mass_S : forall l i j m, mass l i j (S m) = mass l i j m + Rabs (val (l i m)) * Rabs (val (l j m)). Proof. reflexivity. Qed.
Lemma sum_S : forall l i j m, sum l i j (S m) = sum l i j m + val (l i m) * val (l j m). Proof. reflexivity. Qed.

Lemma off_close : forall a l p q m, (q < p)%nat -> (q + 4 <= m)%nat -> solved a l p q -> finite (l p q) = true -> finite (l q q) = true -> 0 < val (l q q) ->
  Rabs (val (a p q) - sum l p q (S q)) <= (grow m - 1) * mass l p q (S q) + (INR q * grow q + 2 * val (l q q)) * tiny.
Proof.
  intros a l p q m L M S F1 F2 P. unfold solved in S. destruct (Nat.eqb_spec p q) as [E|_]; [lia|]. rewrite S in F1. destruct (div_inv _ _ F2 ltac:(lra) F1) as (F3 & d2 & t & D2 & T & E2). rewrite <- S in E2. destruct (sub_inv _ _ F3) as (F4 & F5 & d1 & D1 & E1). rewrite E1 in E2.
  pose proof (dot_close l p q q F5) as C. rewrite sum_S, mass_S. set (v := val (l p q)) in *. set (w := val (l q q)) in *. set (A := val (a p q)) in *. set (s := val (dot l p q q)) in *. set (SS := sum l p q q) in *. set (T0 := mass l p q q) in *.
  destruct (err_inv d1 D1) as (z1 & Z1 & I1). destruct (err_inv d2 D2) as (z2 & Z2 & I2). pose proof (inv_ne _ D1) as N1. pose proof (inv_ne _ D2) as N2.
  assert (E3 : A - s = (v - t) * w * ((1 + z2) * (1 + z1))). { rewrite <- I1, <- I2, E2. field. lra. }
  destruct (near2 z2 z1 Z2 Z1) as (z & Z & EZ). rewrite EZ in E3. pose proof (mass_nonneg l p q q) as MP. fold T0 in MP. pose proof e24_pos as U. pose proof e24_small as US. pose proof tiny_pos as T1. pose proof (grow_le (Datatypes.S q) m ltac:(lia)) as G1. pose proof (grow_4 m ltac:(lia)) as G4.
  replace (A - (SS + v * w)) with ((s - SS) + (v * w * z - t * w * (1 + z))) by (replace A with (s + (v - t) * w * (1 + z)) by lra; ring).
  apply Rle_trans with (1 := Rabs_triang _ _). assert (B : Rabs (v * w * z - t * w * (1 + z)) <= 4 * e24 * (Rabs v * Rabs w) + 2 * w * tiny).
  { unfold Rminus. apply Rle_trans with (1 := Rabs_triang _ _). rewrite Rabs_Ropp, !Rabs_mult. rewrite (Rabs_pos_eq w) by lra. apply Rplus_le_compat.
    - rewrite Rmult_comm. apply Rmult_le_compat_r; [|lra]. apply Rmult_le_pos; [apply Rabs_pos|lra].
    - replace (2 * w * tiny) with (tiny * w * 2) by ring. apply Rmult_le_compat; [apply Rmult_le_pos; [apply Rabs_pos|lra]|apply Rabs_pos| |apply Rabs_le; apply Rabs_le_inv in Z; lra]. apply Rmult_le_compat_r; lra. }
  assert (Q : 0 <= Rabs v * Rabs w) by (apply Rmult_le_pos; apply Rabs_pos).
  pose proof (Rmult_le_compat_r _ _ _ MP G1). pose proof (Rmult_le_compat_r _ _ _ Q G4). lra.
Qed.
Lemma diag_close : forall a l p m, (p + 4 <= m)%nat -> solved a l p p -> finite (l p p) = true ->
  0 < val (l p p) /\ finite (a p p) = true /\ (forall k, (k < p)%nat -> finite (l p k) = true) /\
  Rabs (val (a p p) - sum l p p (S p)) <= (grow m - 1) * sum l p p (S p) + (INR p * grow p) * tiny.
Proof.
  intros a l p m M S F1. unfold solved in S. rewrite Nat.eqb_refl in S. destruct S as [G S]. rewrite S in F1. destruct (sqrt_inv _ G F1) as (F2 & P & d2 & D2 & E2). rewrite <- S in E2. unfold diag in *. destruct (sub_inv _ _ F2) as (F4 & F5 & d1 & D1 & E1).
  assert (PS : 0 < sqrt (val (gsub (a p p) (dot l p p p)))) by (apply sqrt_lt_R0; exact P).
  assert (P2 : 0 < val (l p p)). { rewrite E2. apply Rmult_lt_0_compat; [exact PS|]. apply Rabs_le_inv in D2. pose proof e24_small. lra. }
  split; [exact P2|]. split; [exact F4|]. split; [intros k Hk; exact (proj1 (dot_finite l p p p F5 k Hk))|].
  pose proof (dot_close l p p p F5) as C. pose proof (mass_nonneg l p p p) as MP. rewrite mass_self in C, MP. rewrite sum_S. set (v := val (l p p)) in *. set (A := val (a p p)) in *. set (s := val (dot l p p p)) in *. set (SS := sum l p p p) in *. set (dd := val (gsub (a p p) (dot l p p p))) in *.
  destruct (err_inv d1 D1) as (z1 & Z1 & I1). destruct (err_inv d2 D2) as (z2 & Z2 & I2). pose proof (inv_ne _ D1) as N1. pose proof (inv_ne _ D2) as N2.
  assert (E3 : A - s = v * v * ((1 + z2) * (1 + z2) * (1 + z1))).
  { assert (Q1 : sqrt dd = v * (1 + z2)) by (rewrite <- I2, E2; field; exact N2). assert (Q2 : dd = v * v * ((1 + z2) * (1 + z2))) by (rewrite <- (sqrt_sqrt dd) by lra; rewrite Q1; ring). replace (v * v * ((1 + z2) * (1 + z2) * (1 + z1))) with (dd * (1 + z1)) by (rewrite Q2; ring). rewrite <- I1, E1. field. exact N1. }
  destruct (near2 z2 z2 Z2 Z2) as (z' & Z' & EZ'). rewrite EZ' in E3. destruct (near3 z' z1 Z' Z1) as (z & Z & EZ). rewrite EZ in E3.
  pose proof e24_pos as U. pose proof (grow_le (Datatypes.S p) m ltac:(lia)) as G1. pose proof (grow_4 m ltac:(lia)) as G4.
  replace (A - (SS + v * v)) with ((s - SS) + v * v * z) by (replace A with (s + v * v * (1 + z)) by lra; ring).
  apply Rle_trans with (1 := Rabs_triang _ _). rewrite (Rabs_mult (v * v) z), (Rabs_pos_eq (v * v)) by nra. set (Q := v * v). assert (QP : 0 <= Q) by (unfold Q; nra).
  pose proof (Rmult_le_compat_r _ _ _ MP G1). pose proof (Rmult_le_compat_r _ _ _ QP G4). pose proof (Rmult_le_compat_l _ _ _ QP Z). nra.
Qed.
(** all of a factor that was found, if its diagonal is finite *)
Lemma factor_finite : forall a l i j, inv a i j l -> (forall p, (p < i)%nat -> finite (l p p) = true) -> forall p q, (p < i)%nat -> finite (l p q) = true.
Proof.
  intros a l i j [I1 I2] F p q L. destruct (Nat.lt_trichotomy q p) as [C|[->|C]].
  - assert (B : before i j p p) by (left; exact L). destruct (diag_close a l p (p + 4) ltac:(lia) (I1 p p ltac:(lia) B) (F p L)) as (_ & _ & H & _). apply H. exact C.
  - apply F. exact L.
  - rewrite I2 by lia. reflexivity.
Qed.
Lemma factor_close : forall a l n j, inv a n j l -> (forall p, (p < n)%nat -> finite (l p p) = true) -> forall p q, (q <= p)%nat -> (p < n)%nat ->
  0 < val (l p p) /\ Rabs (val (a p q) - sum l p q (S q)) <= (grow (n + 3) - 1) * mass l p q (S q) + (INR n * grow n + 2 * val (l q q)) * tiny.
Proof.
  intros a l n j I F p q L Lp. pose proof (proj1 I) as I1. assert (D : forall i, (i < n)%nat -> 0 < val (l i i)) by (intros i Hi; exact (proj1 (diag_close a l i (i + 4) ltac:(lia) (I1 i i ltac:(lia) (or_introl Hi)) (F i Hi)))).
  split; [apply D; exact Lp|]. assert (N : INR q * grow q <= INR n * grow n) by (apply Rmult_le_compat; [apply pos_INR|pose proof (grow_pos q); lra|apply le_INR; lia|apply grow_le; lia]). pose proof tiny_pos as T. destruct (Nat.eq_dec q p) as [->|NE].
  - destruct (diag_close a l p (n + 3) ltac:(lia) (I1 p p ltac:(lia) (or_introl Lp)) (F p Lp)) as (P & _ & _ & C). rewrite mass_self. pose proof (Rmult_le_compat_r tiny _ _ (Rlt_le _ _ T) N). pose proof (Rmult_lt_0_compat _ _ P T). nra.
  - pose proof (off_close a l p q (n + 3) ltac:(lia) ltac:(lia) (I1 p q L (or_introl Lp)) (factor_finite a l n j I F p q Lp) (F q ltac:(lia)) (D q ltac:(lia))) as C. pose proof (Rmult_le_compat_r tiny _ _ (Rlt_le _ _ T) N). nra.
Qed.
