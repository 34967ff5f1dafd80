(** QNormal.v -- the standard normal distribution: its density, its
    distribution function, and what is known of them (the Gaussian integral). *)
From Coq Require Import Reals Lra Lia.
From Coquelicot Require Import Coquelicot.
Open Scope R_scope.

Local Ltac inR := match goal with |- @eq _ ?a ?b => change (@eq R a b) end.
(** the density, and the distribution function *)
Definition phi (x : R) : R := exp (- (x * x / 2)) / sqrt (2 * PI).
Definition Phi (x : R) : R := / 2 + RInt phi 0 x.

(** ** The Gaussian integral *)
Definition gauss (t : R) : R := exp (- (t * t / 2)).
Definition gint (x : R) : R := RInt gauss 0 x.
Definition kernel (x u : R) : R := 2 * exp (- (x * x * (1 + u * u) / 2)) / (1 + u * u).
Definition grest (x : R) : R := RInt (kernel x) 0 1.

Lemma int_ext : forall (f g : R -> R) a b, (forall x, f x = g x) -> RInt f a b = RInt g a b.
Proof. intros f g a b E. apply RInt_ext. intros x _. apply E. Qed.
Lemma sq1 : forall u, 0 < 1 + u * u. Proof. intro u. pose proof (Rle_0_sqr u) as Q. unfold Rsqr in Q. lra. Qed.
Lemma gauss_derive : forall x, is_derive gauss x (- x * gauss x).
Proof. intro x. unfold gauss. auto_derive; [trivial|]. unfold Rdiv. field. Qed.
Lemma gauss_cont : forall x, continuous gauss x.
Proof. intro x. apply (ex_derive_continuous gauss). eexists. apply gauss_derive. Qed.
Lemma gauss_int : forall a b, ex_RInt gauss a b.
Proof. intros. apply (ex_RInt_continuous gauss). intros. apply gauss_cont. Qed.
Lemma gint_derive : forall x, is_derive gint x (gauss x).
Proof. intro x. unfold gint. apply (is_derive_RInt gauss _ 0 x); [|apply gauss_cont]. apply filter_forall. intro y. apply (RInt_correct gauss 0 y (gauss_int 0 y)). Qed.
Lemma kernel_derive : forall u x, is_derive (fun z => kernel z u) x (- 2 * x * exp (- (x * x * (1 + u * u) / 2))).
Proof. intros u x. pose proof (sq1 u). unfold kernel. auto_derive; [lra|]. unfold Rdiv. set (e := exp _). field. lra. Qed.
Lemma kernel_cont : forall x u, continuous (kernel x) u.
Proof. intros x u. apply (ex_derive_continuous (kernel x)). pose proof (sq1 u). unfold kernel. auto_derive. lra. Qed.
Lemma kernel_int : forall x a b, ex_RInt (kernel x) a b.
Proof. intros. apply (ex_RInt_continuous (kernel x)). intros. apply kernel_cont. Qed.
Lemma grest_derive : forall x, is_derive grest x (RInt (fun u => - 2 * x * exp (- (x * x * (1 + u * u) / 2))) 0 1).
Proof.
  intro x. unfold grest. evar_last.
  - apply (is_derive_RInt_param kernel 0 1 x).
    + apply filter_forall. intros y t _. eexists. apply kernel_derive.
    + intros t _. apply continuity_2d_pt_ext with (fun u v => - 2 * u * exp (- (u * u * (1 + v * v) / 2))).
      * intros u v. symmetry. apply is_derive_unique. apply kernel_derive.
      * apply continuity_2d_pt_mult.
        -- apply continuity_2d_pt_mult; [apply continuity_2d_pt_const|]. apply continuity_1d_2d_pt_comp with (f := fun u => u) (g := fun u _ => u); [apply continuity_pt_id|]. apply continuity_2d_pt_id1.
        -- apply (continuity_1d_2d_pt_comp exp (fun u v => - (u * u * (1 + v * v) / 2))).
           ++ apply derivable_continuous_pt. apply derivable_pt_exp.
           ++ apply continuity_2d_pt_opp. unfold Rdiv. apply continuity_2d_pt_mult; [|apply continuity_2d_pt_const].
              apply continuity_2d_pt_mult; [apply continuity_2d_pt_mult; apply continuity_2d_pt_id1|].
              apply continuity_2d_pt_plus; [apply continuity_2d_pt_const|]. apply continuity_2d_pt_mult; apply continuity_2d_pt_id2.
    + apply filter_forall. intro y. apply kernel_int.
  - apply int_ext. intro u. apply is_derive_unique. apply kernel_derive.
Qed.
Lemma scaled_int : forall (f : R -> R) k a b, ex_RInt f a b -> RInt (fun u => k * f u) a b = k * RInt f a b.
Proof. intros f k a b E. exact (RInt_scal f a b k E). Qed.
Lemma linear_int : forall (f : R -> R) u v a b, ex_RInt f (u * a + v) (u * b + v) -> RInt (fun y => u * f (u * y + v)) a b = RInt f (u * a + v) (u * b + v).
Proof. intros f u v a b E. exact (RInt_comp_lin f u v a b E). Qed.
Lemma grest_slope : forall x, RInt (fun u => - 2 * x * exp (- (x * x * (1 + u * u) / 2))) 0 1 = - 2 * gint x * gauss x.
Proof.
  intro x. unfold gint.
  transitivity (RInt (fun u => (- 2 * gauss x) * (x * gauss (x * u + 0))) 0 1).
  - apply int_ext. intro u. unfold gauss. replace (- (x * x * (1 + u * u) / 2)) with (- (x * x / 2) + - ((x * u + 0) * (x * u + 0) / 2)) by field. rewrite exp_plus. ring.
  - rewrite (scaled_int (fun u => x * gauss (x * u + 0))). 2:{ apply (ex_RInt_continuous (fun u => x * gauss (x * u + 0))). intros z _. apply (ex_derive_continuous (fun u => x * gauss (x * u + 0))). unfold gauss. auto_derive. trivial. }
    rewrite (linear_int gauss x 0 0 1) by apply gauss_int. replace (x * 0 + 0) with 0 by ring. replace (x * 1 + 0) with x by ring. inR. ring.
Qed.
Lemma grest_zero : grest 0 = PI / 2.
Proof.
  unfold grest. transitivity (RInt (fun u => 2 * (/ (1 + u ^ 2))) 0 1).
  - apply int_ext. intro u. unfold kernel. replace (- (0 * 0 * (1 + u * u) / 2)) with 0 by field. rewrite exp_0. pose proof (sq1 u). field. lra.
  - apply is_RInt_unique. replace (PI / 2) with (minus (2 * atan 1) (2 * atan 0)) by (unfold minus, plus, opp; simpl; rewrite atan_1, atan_0; field).
    apply (is_RInt_derive (fun u => 2 * atan u)).
    + intros u _. evar_last. { apply is_derive_scal. apply is_derive_atan. } unfold Rsqr. pose proof (sq1 u). simpl. field. lra.
    + intros u _. apply (ex_derive_continuous (fun u => 2 * / (1 + u ^ 2))). pose proof (sq1 u). auto_derive. simpl. lra.
Qed.
(** gint(x)^2 + grest(x) is pi / 2 everywhere *)
Lemma gaussian : forall x, gint x * gint x + grest x = PI / 2.
Proof.
  intro x. assert (D : forall y, is_derive (fun y => gint y * gint y + grest y) y 0).
  { intro y. evar_last. { apply (is_derive_plus (fun y => gint y * gint y) grest). { apply (is_derive_mult gint gint y); [apply gint_derive|apply gint_derive|]. intros n m. apply Rmult_comm. } apply grest_derive. }
    rewrite grest_slope. unfold plus, mult; simpl. ring. }
  assert (C : gint x * gint x + grest x = gint 0 * gint 0 + grest 0).
  { destruct (Rtotal_order x 0) as [L|[->|L]]; [|reflexivity|].
    - destruct (MVT_gen (fun y => gint y * gint y + grest y) x 0 (fun _ => 0)) as (z & _ & Q); [intros; apply D| |lra].
      intros y _. apply derivable_continuous_pt. exists 0. apply is_derive_Reals. apply D.
    - destruct (MVT_gen (fun y => gint y * gint y + grest y) 0 x (fun _ => 0)) as (z & _ & Q); [intros; apply D| |lra].
      intros y _. apply derivable_continuous_pt. exists 0. apply is_derive_Reals. apply D. }
  rewrite C, grest_zero. unfold gint. rewrite RInt_point. unfold zero; simpl. ring.
Qed.
Lemma grest_bounds : forall x, 0 < grest x <= PI / 2 * gauss x.
Proof.
  intro x. split.
  - unfold grest. apply RInt_gt_0; [lra| |intros; apply kernel_cont]. intros u _. unfold kernel. pose proof (sq1 u). apply Rdiv_lt_0_compat; [|assumption]. pose proof (exp_pos (- (x * x * (1 + u * u) / 2))). lra.
  - rewrite <- grest_zero. unfold grest. rewrite Rmult_comm. rewrite <- scaled_int by apply kernel_int.
    apply RInt_le; [lra|apply kernel_int| |].
    + apply (ex_RInt_scal (kernel 0)). apply kernel_int.
    + intros u _. unfold kernel. pose proof (sq1 u). replace (- (0 * 0 * (1 + u * u) / 2)) with 0 by field. rewrite exp_0.
      unfold Rdiv. rewrite <- Rmult_assoc. apply Rmult_le_compat_r; [left; apply Rinv_0_lt_compat; assumption|].
      assert (E : exp (- (x * x * (1 + u * u) * / 2)) <= gauss x); [|lra]. unfold gauss.
      destruct (Rle_lt_or_eq_dec (- (x * x * (1 + u * u) * / 2)) (- (x * x / 2))) as [L|Q].
      * assert (0 <= x * x * (u * u)) by (apply Rmult_le_pos; [apply (Rle_0_sqr x)|apply (Rle_0_sqr u)]). lra.
      * left. apply exp_increasing. exact L.
      * rewrite Q. lra.
Qed.

(** ** The distribution function *)
Lemma pi2 : 0 < sqrt (2 * PI) /\ sqrt (2 * PI) * sqrt (2 * PI) = 2 * PI.
Proof. pose proof PI_RGT_0. split; [apply sqrt_lt_R0; lra|apply sqrt_sqrt; lra]. Qed.
Lemma phi_gauss : forall x, phi x = / sqrt (2 * PI) * gauss x.
Proof. intro. unfold phi, gauss. unfold Rdiv. ring. Qed.
Lemma Phi_gint : forall x, Phi x = / 2 + gint x / sqrt (2 * PI).
Proof.
  intro x. unfold Phi, gint. f_equal. transitivity (RInt (fun t => / sqrt (2 * PI) * gauss t) 0 x).
  - apply int_ext. intros. apply phi_gauss.
  - rewrite scaled_int by apply gauss_int. unfold Rdiv. inR. ring.
Qed.
Lemma Phi_derive : forall x, is_derive Phi x (phi x).
Proof.
  intro x. apply (is_derive_ext (fun x => / 2 + gint x / sqrt (2 * PI))); [intro; symmetry; apply Phi_gint|].
  evar_last. { apply (is_derive_plus (fun _ => / 2) (fun x => gint x / sqrt (2 * PI))); [apply is_derive_const|]. unfold Rdiv. apply (is_derive_ext (fun t => / sqrt (2 * PI) * gint t)); [intro; inR; ring|]. apply is_derive_scal. apply gint_derive. }
  rewrite phi_gauss. unfold plus, zero; simpl. ring.
Qed.
Lemma gint_odd : forall x, gint (- x) = - gint x.
Proof.
  intro x. unfold gint. replace (RInt gauss 0 (- x)) with (RInt gauss (-1 * 0 + 0) (-1 * x + 0)) by (f_equal; ring).
  rewrite <- (linear_int gauss (-1) 0 0 x) by apply gauss_int. rewrite (int_ext _ (fun t => -1 * gauss t)). 2:{ intros t. unfold gauss. f_equal. f_equal. field. }
  rewrite scaled_int by apply gauss_int. inR. ring.
Qed.
Lemma Phi_sym : forall x, Phi (- x) = 1 - Phi x.
Proof. intro x. rewrite !Phi_gint, gint_odd. unfold Rdiv. lra. Qed.
Lemma gint_range : forall x, - (sqrt (2 * PI) / 2) < gint x < sqrt (2 * PI) / 2.
Proof.
  intro x. destruct pi2 as [P2 S2]. pose proof (gaussian x) as G. destruct (grest_bounds x) as [B0 _]. set (s := sqrt (2 * PI)) in *.
  assert (K : gint x * gint x < s / 2 * (s / 2)) by (replace (s / 2 * (s / 2)) with (s * s / 4) by field; lra).
  split; apply Rnot_le_lt; intro Q.
  - assert (s / 2 * (s / 2) <= - gint x * - gint x) by (apply Rmult_le_compat; lra). lra.
  - assert (s / 2 * (s / 2) <= gint x * gint x) by (apply Rmult_le_compat; lra). lra.
Qed.
Lemma Phi_range : forall x, 0 < Phi x < 1.
Proof.
  intro x. rewrite Phi_gint. destruct pi2 as [P2 _]. destruct (gint_range x) as [L U]. set (s := sqrt (2 * PI)) in *.
  assert (- / 2 < gint x / s < / 2); [|lra]. split.
  - apply Rmult_lt_reg_r with s; [exact P2|]. unfold Rdiv. rewrite Rmult_assoc, Rinv_l by lra. lra.
  - apply Rmult_lt_reg_r with s; [exact P2|]. unfold Rdiv. rewrite Rmult_assoc, Rinv_l by lra. lra.
Qed.
Lemma Phi_half : Phi 0 = / 2.
Proof. rewrite Phi_gint. unfold gint. rewrite RInt_point. unfold zero; simpl. unfold Rdiv. rewrite Rmult_0_l. lra. Qed.
(** the density is at most 1/2 *)
Lemma phi_max : forall x, 0 < phi x <= / 2.
Proof.
  intro x. rewrite phi_gauss. destruct pi2 as [P2 S2]. pose proof PI2_3_2 as P3. set (s := sqrt (2 * PI)) in *.
  assert (S2' : 2 <= s). { apply Rnot_lt_le. intro Q. assert (s * s <= 2 * 2) by (apply Rmult_le_compat; lra). lra. }
  assert (IS : 0 < / s <= / 2) by (split; [apply Rinv_0_lt_compat; lra|apply Rinv_le_contravar; lra]).
  assert (G : 0 < gauss x <= 1). { unfold gauss. split; [apply exp_pos|]. rewrite <- exp_0. pose proof (Rle_0_sqr x) as Q. unfold Rsqr in Q. destruct (Req_dec (x * x) 0) as [Z|N]; [right; f_equal; lra|left; apply exp_increasing; lra]. }
  split; [apply Rmult_lt_0_compat; lra|]. replace (/ 2) with (/ 2 * 1) by ring. apply Rmult_le_compat; lra.
Qed.
Lemma Phi_cont : forall x, continuity_pt Phi x.
Proof. intro x. apply derivable_continuous_pt. exists (phi x). apply is_derive_Reals. apply Phi_derive. Qed.
Lemma Phi_mean : forall a b, a < b -> exists z, a <= z <= b /\ Phi b - Phi a = phi z * (b - a).
Proof.
  intros a b L. destruct (MVT_gen Phi a b phi) as (z & Z & Q); [intros; apply Phi_derive|intros; apply Phi_cont|]. rewrite Rmin_left, Rmax_right in Z by lra. exists z. auto.
Qed.
Lemma Phi_increasing : forall a b, a < b -> Phi a < Phi b.
Proof. intros a b L. destruct (Phi_mean a b L) as (z & _ & Q). pose proof (phi_max z) as [P _]. assert (0 < phi z * (b - a)) by (apply Rmult_lt_0_compat; lra). lra. Qed.
Lemma Phi_le : forall a b, a <= b -> Phi a <= Phi b.
Proof. intros a b [L| ->]; [left; apply Phi_increasing; exact L|lra]. Qed.
Lemma Phi_lip : forall a b, Rabs (Phi a - Phi b) <= Rabs (a - b) / 2.
Proof.
  assert (K : forall a b, a < b -> 0 <= Phi b - Phi a <= (b - a) / 2).
  { intros a b L. destruct (Phi_mean a b L) as (z & _ & Q). pose proof (phi_max z) as [P M]. rewrite Q. split; [apply Rmult_le_pos; lra|]. unfold Rdiv. rewrite (Rmult_comm (b - a)). apply Rmult_le_compat_r; lra. }
  intros a b. destruct (Rtotal_order a b) as [L|[->|L]].
  - pose proof (K a b L). rewrite (Rabs_left1 (Phi a - Phi b)), (Rabs_left1 (a - b)) by lra. lra.
  - rewrite !Rminus_eq_0, Rabs_R0. lra.
  - pose proof (K b a L). rewrite (Rabs_pos_eq (Phi a - Phi b)), (Rabs_pos_eq (a - b)) by lra. lra.
Qed.
