(** QVolBumpProps.v -- C180 and C181: bumped surfaces, sticky surfaces. *)
From Coq Require Import ZArith Arith Ascii String.
From Coq Require Import List Bool Lia Reals Lra.
From Flocq Require Import Core IEEE754.BinarySingleNaN.
From Verif Require Import Base FloatModel FloatFacts KrxModel QDateModel QYearModel QPeriodModel QFindModel QFindSpec QFindProofs QFindProps QInterpModel QInterpSpec QInterpProofs QFloatErr QLinProofs QLinProps QBilinProps
  QDivModel QDivSpec QDivProps QSwapModel QSwapSpec QSwapProps QBondProofs QCurveModel QCurveFacts QCurveExp QCurveProps QCurveFwdProps QBondSpec QBondPriceProps QMoneyModel QFutModel QFutProps QOptProofs QVolModel QVolSpec QVolProofs QVolProps QVolMktProps QPeriodSpec QCurveSpec.
Import ListNotations.
Open Scope R_scope.

(** ** the windows *)
Lemma eps_value : finite vol_eps /\ / 20000 <= value vol_eps <= / 5000.
Proof.
  assert (B : is_finite vol_eps && gle (gdiv (gof_Z 1) (gof_Z 16384)) vol_eps && gle vol_eps (gdiv (gof_Z 1) (gof_Z 8192)) = true) by (vm_compute; reflexivity). apply andb_prop in B. destruct B as [B B3]. apply andb_prop in B. destruct B as [B1 B2]. split; [exact B1|].
  assert (Q : forall k, (0 < k <= 2 ^ 20)%Z -> generic_format radix2 (FLT_exp (-149) 24) (/ IZR k) -> finite (gdiv (gof_Z 1) (gof_Z k) : f32) /\ value (gdiv (gof_Z 1) (gof_Z k)) = / IZR k).
  { intros k K G. destruct (small_fin 1 ltac:(lia)) as [F1 V1]. destruct (small_fin k ltac:(lia)) as [Fk Vk]. unfold real_of in *. assert (K1 : 1 <= IZR k) by (apply (IZR_le 1); lia).
    pose proof (fin_div 24 128 _ _ _ _ (conj F1 V1) (conj Fk Vk) ltac:(lra)) as D. unfold Rdiv in D. rewrite Rmult_1_l in D. assert (H : Rabs (/ IZR k) <= huge 128). { rewrite hug. apply two100_127. assert (0 < / IZR k <= 1) by (split; [apply Rinv_0_lt_compat; lra|rewrite <- Rinv_1; apply Rinv_le; lra]). rewrite Rabs_pos_eq by lra. pose proof two100_pos. lra. }
    specialize (D H). rewrite (rnd_fix 24 128) in D by exact G. exact D. }
  assert (G1 : generic_format radix2 (FLT_exp (-149) 24) (/ IZR 16384)) by (replace (/ IZR 16384) with (bpow radix2 (-14)) by (cbn; lra); apply generic_format_bpow; unfold FLT_exp; lia).
  assert (G2 : generic_format radix2 (FLT_exp (-149) 24) (/ IZR 8192)) by (replace (/ IZR 8192) with (bpow radix2 (-13)) by (cbn; lra); apply generic_format_bpow; unfold FLT_exp; lia).
  destruct (Q 16384%Z ltac:(lia) G1) as [Fa Va]. destruct (Q 8192%Z ltac:(lia) G2) as [Fb Vb].
  apply (proj1 (fin_le 24 128 _ _ _ _ (conj Fa Va) (conj B1 eq_refl))) in B2. apply (proj1 (fin_le 24 128 _ _ _ _ (conj B1 eq_refl) (conj Fb Vb))) in B3. unfold value. lra.
Qed.
(** a knot and the allowance *)
Lemma nudge : forall a : f32, finite a -> 0 <= value a <= 2 ^ 10 -> exists w, fn (gadd a vol_eps) w /\ value a <= w < value a + / 2 ^ 11.
Proof.
  intros a Fa R. destruct eps_value as [Fe Ve]. destruct (add_err a vol_eps _ _ (conj Fa eq_refl) (conj Fe eq_refl)) as (w & d & Fw & D & E).
  { apply two100_127. change (Rabs (value a + value vol_eps) <= two100 * 1000000). rewrite Rabs_pos_eq by lra. pose proof pow60_100 as [_ Q]. lra. }
  exists w. split; [exact Fw|]. change (w = (value a + value vol_eps) * (1 + d)) in E. apply Rabs_le_inv in D. assert (E1 : e24 = / 16777216) by reflexivity.
  assert (X : Rabs ((value a + value vol_eps) * d) <= (2 ^ 10 + 1) * e24) by (rewrite Rabs_mult; apply Rmult_le_compat; try apply Rabs_pos; [rewrite Rabs_pos_eq; lra|apply Rabs_le; lra]).
  apply Rabs_le_inv in X. rewrite Rmult_plus_distr_l, Rmult_1_r in E. rewrite E1 in X. split; [|lra].
  assert (H : Rabs (B2R a + B2R vol_eps) <= huge 128) by (fold (value a) (value vol_eps); rewrite hug; apply two100_127; rewrite Rabs_pos_eq by lra; pose proof pow60_100 as [_ Q]; lra).
  destruct (fin_add 24 128 a vol_eps _ _ (conj Fa eq_refl) (conj Fe eq_refl) H) as [_ V]. destruct Fw as [_ Vw]. rewrite Vw in V. rewrite V. fold (value a) (value vol_eps). pose proof (rnd_le 24 128 (value a) (value a + value vol_eps) ltac:(lra)) as Q. unfold value at 1 in Q. rewrite (rnd_B2R 24 128) in Q. exact Q.
Qed.
Lemma none_from : forall x : f32, finite x -> 0 <= value x <= 2 ^ 10 -> glt (gadd (from_or None) vol_eps) x = true.
Proof.
  intros x Fx R. assert (N : is_finite (gadd (from_or None) vol_eps) && glt (gadd (from_or None) vol_eps) (gof_Z 0) = true) by (vm_compute; reflexivity). apply andb_prop in N. destruct N as [N1 N2].
  destruct (small_fin 0 ltac:(lia)) as [F0 V0]. unfold real_of in V0. apply (proj1 (fin_lt 24 128 _ _ _ _ (conj N1 eq_refl) (conj F0 V0))) in N2. apply (fin_lt 24 128 _ _ _ _ (conj N1 eq_refl) (conj Fx eq_refl)). unfold value in R. lra.
Qed.
Lemma none_to : forall x : f32, finite x -> 0 <= value x <= 2 ^ 10 -> gle x (gadd (to_or None) vol_eps) = true.
Proof.
  intros x Fx R. assert (N : is_finite (gadd (to_or None) vol_eps) && gle (gof_Z 1024) (gadd (to_or None) vol_eps) = true) by (vm_compute; reflexivity). apply andb_prop in N. destruct N as [N1 N2].
  destruct (small_fin 1024 ltac:(lia)) as [F0 V0]. unfold real_of in V0. apply (proj1 (fin_le 24 128 _ _ _ _ (conj F0 V0) (conj N1 eq_refl))) in N2. apply (fin_le 24 128 _ _ _ _ (conj Fx eq_refl) (conj N1 eq_refl)). unfold value in R. lra.
Qed.
Lemma steps_gap : forall l, apart l -> forall i j a b, nth_error l i = Some a -> nth_error l j = Some b -> (i < j)%nat -> value a + / 2 ^ 10 <= value b.
Proof.
  intros l [F S] i j. induction j as [|j IH]; intros a b A B L; [lia|]. destruct (nth_error l j) as [z|] eqn:Z; [|apply nth_error_None in Z; assert (Datatypes.S j < length l)%nat by (apply nth_error_Some; congruence); lia].
  assert (B' : nth_error l (j + 1) = Some b) by (replace (j + 1)%nat with (Datatypes.S j) by lia; exact B). pose proof (S j z b Z B') as Q. cbn beta in Q. destruct (Nat.eq_dec i j) as [->|N]; [assert (a = z) by congruence; subst; exact Q|].
  pose proof (IH a z A eq_refl ltac:(lia)) as R. assert (0 < / 2 ^ 10) by (apply Rinv_0_lt_compat; lra). lra.
Qed.
Lemma window_knots : forall l i j x y k a, apart l -> bound_at l i x -> bound_at l j y -> nth_error l k = Some a -> in_window (from_or x) (to_or y) a = after i k && upto j k.
Proof.
  intros l i j x y k a AP BX BY A. pose proof AP as [F _]. rewrite Forall_forall in F. destruct (F a (nth_error_In _ _ A)) as [Fa Ra]. assert (P10 : 0 < / 2 ^ 10) by (apply Rinv_0_lt_compat; lra). assert (P11 : / 2 ^ 11 < / 2 ^ 10) by (apply Rinv_lt_contravar; lra).
  unfold in_window. f_equal.
  - destruct i as [i|], x as [x|]; cbn in BX; try contradiction; [|exact (none_from a Fa Ra)]. cbn [from_or after]. destruct (F x (nth_error_In _ _ BX)) as [Fx Rx]. destruct (nudge x Fx Rx) as (w & Fw & W).
    destruct (Nat.ltb_spec i k) as [L|L].
    + apply (fin_lt 24 128 _ _ _ _ Fw (conj Fa eq_refl)). fold (value a). pose proof (steps_gap l AP i k x a BX A L). lra.
    + apply (fin_lt_false 24 128 _ _ _ _ Fw (conj Fa eq_refl)). fold (value a). destruct (Nat.eq_dec i k) as [->|N]; [assert (a = x) by congruence; subst; lra|]. pose proof (steps_gap l AP k i a x A BX ltac:(lia)). lra.
  - destruct j as [j|], y as [y|]; cbn in BY; try contradiction; [|exact (none_to a Fa Ra)]. cbn [to_or upto]. destruct (F y (nth_error_In _ _ BY)) as [Fy Ry]. destruct (nudge y Fy Ry) as (w & Fw & W).
    destruct (Nat.leb_spec k j) as [L|L].
    + apply (fin_le 24 128 _ _ _ _ (conj Fa eq_refl) Fw). fold (value a). destruct (Nat.eq_dec k j) as [->|N]; [assert (a = y) by congruence; subst; lra|]. pose proof (steps_gap l AP k j a y A BY ltac:(lia)). lra.
    + destruct (gle a (gadd y vol_eps)) eqn:G; [|reflexivity]. exfalso. apply (fin_le 24 128 _ _ _ _ (conj Fa eq_refl) Fw) in G. fold (value a) in G. pose proof (steps_gap l AP j k y a BY A L). lra.
Qed.
(** ** C180: a bump between knots bumps the knots between *)
Lemma bump_nth : forall t1 t2 l r bump times money grid i t row, nth_error times i = Some t -> nth_error grid i = Some row ->
  nth_error (bump_grid t1 t2 l r bump times money grid) i = Some (if in_window (from_or t1) (to_or t2) t then map (fun q => if in_window (from_or l) (to_or r) (fst q) then gadd (snd q) bump else snd q) (combine money row) else row).
Proof. intros. unfold bump_grid. erewrite map_nth_error; [|apply nth_combine; eassumption]. reflexivity. Qed.
Theorem c180_cells : forall times money grid i1 i2 j1 j2 t1 t2 l r bump i j t m v, apart times -> apart money -> bound_at times i1 t1 -> bound_at times i2 t2 -> bound_at money j1 l -> bound_at money j2 r ->
  nth_error times i = Some t -> nth_error money j = Some m -> cell grid i j = Some v ->
  cell (bump_grid t1 t2 l r bump times money grid) i j = Some (if after i1 i && upto i2 i && (after j1 j && upto j2 j) then gadd v bump else v).
Proof.
  intros times money grid i1 i2 j1 j2 t1 t2 l r bump i j t m v AT AM B1 B2 B3 B4 Ht Hm C. unfold cell in *. destruct (nth_error grid i) as [row|] eqn:Hr; [|discriminate C].
  rewrite (bump_nth t1 t2 l r bump times money grid i t row Ht Hr), (window_knots times i1 i2 t1 t2 i t AT B1 B2 Ht). destruct (after i1 i && upto i2 i); cbn [andb]; [|exact C].
  erewrite map_nth_error; [|apply nth_combine; eassumption]. cbn [fst snd]. rewrite (window_knots money j1 j2 l r j m AM B3 B4 Hm). reflexivity.
Qed.
Theorem c180_shape : forall t1 t2 l r bump times money grid, length grid = length times -> Forall (fun row => length row = length money) grid ->
  length (bump_grid t1 t2 l r bump times money grid) = length times /\ Forall (fun row => length row = length money) (bump_grid t1 t2 l r bump times money grid).
Proof.
  intros t1 t2 l r bump times money grid L F. split; [unfold bump_grid; rewrite map_length, combine_length; lia|]. apply Forall_forall. intros row' I. unfold bump_grid in I. apply in_map_iff in I. destruct I as ((t & row) & <- & I). apply in_combine_r in I. rewrite Forall_forall in F. pose proof (F row I) as E.
  cbn [fst snd]. destruct (in_window _ _ t); [|exact E]. rewrite map_length, combine_length. lia.
Qed.
(** adjacent windows make one: no knot is missed, none is bumped twice *)
Lemma adjacent : forall a b c x : f32, finite a -> finite b -> finite c -> finite x -> value a <= value b <= value c -> Rabs (value a) <= 2 ^ 60 -> Rabs (value c) <= 2 ^ 60 ->
  in_window a c x = xorb (in_window a b x) (in_window b c x) /\ (in_window a b x && in_window b c x = false).
Proof.
  intros a b c x Fa Fb Fc Fx L Ba Bc. destruct eps_value as [Fe Ve]. apply Rabs_le_inv in Ba. apply Rabs_le_inv in Bc.
  assert (N : forall z : f32, finite z -> Rabs (value z) <= 2 ^ 60 -> fin 24 128 (gadd z vol_eps) (rnd 24 128 (value z + value vol_eps))).
  { intros z Fz Bz. apply (fin_add 24 128 z vol_eps _ _ (conj Fz eq_refl) (conj Fe eq_refl)). rewrite hug. apply two100_127. fold (value z) (value vol_eps). apply Rle_trans with (1 := Rabs_triang _ _). rewrite (Rabs_pos_eq (value vol_eps)) by lra. pose proof pow60_100 as [_ Q]. lra. }
  pose proof (N a Fa ltac:(apply Rabs_le; lra)) as Na. pose proof (N b Fb ltac:(apply Rabs_le; lra)) as Nb. pose proof (N c Fc ltac:(apply Rabs_le; lra)) as Nc.
  pose proof (rnd_le 24 128 (value a + value vol_eps) (value b + value vol_eps) ltac:(lra)) as L1. pose proof (rnd_le 24 128 (value b + value vol_eps) (value c + value vol_eps) ltac:(lra)) as L2.
  set (A := rnd 24 128 (value a + value vol_eps)) in *. set (B := rnd 24 128 (value b + value vol_eps)) in *. set (C := rnd 24 128 (value c + value vol_eps)) in *.
  assert (LT : forall (u : f32) w, fin 24 128 u w -> glt u x = if Rlt_dec w (value x) then true else false) by (intros u w Fu; destruct (Rlt_dec w (value x)) as [H|H]; [apply (fin_lt 24 128 _ _ _ _ Fu (conj Fx eq_refl)); exact H|apply (fin_lt_false 24 128 _ _ _ _ Fu (conj Fx eq_refl)); fold (value x); lra]).
  assert (LE : forall (u : f32) w, fin 24 128 u w -> gle x u = if Rlt_dec w (value x) then false else true).
  { intros u w Fu. destruct (Rlt_dec w (value x)) as [H|H]; [|apply (fin_le 24 128 _ _ _ _ (conj Fx eq_refl) Fu); fold (value x); lra]. destruct (gle x u) eqn:G; [|reflexivity]. apply (fin_le 24 128 _ _ _ _ (conj Fx eq_refl) Fu) in G. fold (value x) in G. lra. }
  unfold in_window. rewrite (LT _ _ Na), (LT _ _ Nb), (LE _ _ Nb), (LE _ _ Nc). destruct (Rlt_dec A (value x)), (Rlt_dec B (value x)), (Rlt_dec C (value x)); cbn; split; try reflexivity; lra.
Qed.
Theorem c180_adjacent_times : forall a b c l r bump times money grid, finite a -> finite b -> finite c -> value a <= value b <= value c -> Rabs (value a) <= 2 ^ 60 -> Rabs (value c) <= 2 ^ 60 -> Forall finite times ->
  length grid = length times -> Forall (fun row => length row = length money) grid ->
  bump_grid (Some b) (Some c) l r bump times money (bump_grid (Some a) (Some b) l r bump times money grid) = bump_grid (Some a) (Some c) l r bump times money grid.
Proof.
  intros a b c l r bump times money grid Fa Fb Fc L Ba Bc FT LG _. unfold bump_grid. revert grid LG. induction FT as [|t times Ft FT IH]; intros grid LG; [reflexivity|]. destruct grid as [|row grid]; [discriminate LG|].
  cbn [combine map fst snd]. f_equal; [|apply IH; injection LG as LG; exact LG]. cbn [from_or to_or]. destruct (adjacent a b c t Fa Fb Fc Ft L Ba Bc) as [X Y]. rewrite X. destruct (in_window a b t), (in_window b c t); cbn in *; try reflexivity; discriminate Y.
Qed.
Lemma map_combine_twice : forall (f g : f32 -> f32 -> f32) money row, map (fun q => g (fst q) (snd q)) (combine money (map (fun q => f (fst q) (snd q)) (combine money row))) = map (fun q => g (fst q) (f (fst q) (snd q))) (combine money row).
Proof. intros f g. induction money as [|m money IH]; intros row; [reflexivity|]. destruct row as [|v row]; [reflexivity|]. cbn [combine map fst snd]. f_equal. apply IH. Qed.
Theorem c180_adjacent_moneyness : forall a b c t1 t2 bump times money grid, finite a -> finite b -> finite c -> value a <= value b <= value c -> Rabs (value a) <= 2 ^ 60 -> Rabs (value c) <= 2 ^ 60 -> Forall finite money ->
  length grid = length times -> Forall (fun row => length row = length money) grid ->
  bump_grid t1 t2 (Some b) (Some c) bump times money (bump_grid t1 t2 (Some a) (Some b) bump times money grid) = bump_grid t1 t2 (Some a) (Some c) bump times money grid.
Proof.
  intros a b c t1 t2 bump times money grid Fa Fb Fc L Ba Bc FM LG FG. unfold bump_grid. revert times LG. induction FG as [|row grid LR FG IH]; intros times LG; [destruct times; reflexivity|]. destruct times as [|t times]; [discriminate LG|].
  cbn [combine map fst snd]. f_equal; [|apply IH; injection LG as LG; exact LG]. destruct (in_window (from_or t1) (to_or t2) t); [|reflexivity].
  rewrite (map_combine_twice (fun x v => if in_window (from_or (Some a)) (to_or (Some b)) x then gadd v bump else v) (fun x v => if in_window (from_or (Some b)) (to_or (Some c)) x then gadd v bump else v) money row).
  apply map_ext_in. intros (x & v) I. cbn [fst snd from_or to_or]. apply in_combine_l in I. rewrite Forall_forall in FM. destruct (adjacent a b c x Fa Fb Fc (FM x I) L Ba Bc) as [X Y]. rewrite X. destruct (in_window a b x), (in_window b c x); cbn in *; try reflexivity; discriminate Y.
Qed.
(** REFUTED: the source says time1 <= t <= time2: the row at time1 is left out *)
Theorem c180_lower_refuted : forall times money grid i t bump row, apart times -> nth_error times i = Some t -> nth_error grid i = Some row ->
  nth_error (bump_grid (Some t) None None None bump times money grid) i = Some row.
Proof.
  intros times money grid i t bump row A Ht Hr. rewrite (bump_nth _ _ _ _ _ _ _ _ i t row Ht Hr). rewrite (window_knots times (Some i) None (Some t) None i t A Ht I Ht). cbn [after]. rewrite Nat.ltb_irrefl. reflexivity.
Qed.
(** ** the surface under a bumped grid *)
Lemma F2_of_nth : forall A B (P : A -> B -> Prop) l m, length l = length m -> (forall i x y, nth_error l i = Some x -> nth_error m i = Some y -> P x y) -> Forall2 P l m.
Proof.
  intros A B P. induction l as [|x l IH]; intros m L H; destruct m as [|y m]; try discriminate L; constructor; [exact (H 0%nat x y eq_refl eq_refl)|]. apply IH; [injection L as L; exact L|]. intros i a b Ha Hb. exact (H (Datatypes.S i) a b Ha Hb).
Qed.
Lemma convex : forall lo hi u u' w w' z : R, lo <= u' - u <= hi -> lo <= w' - w <= hi -> 0 <= z <= 1 -> lo <= u' + z * (w' - u') - (u + z * (w - u)) <= hi.
Proof.
  intros lo hi u u' w w' z U W Z. replace (u' + z * (w' - u') - (u + z * (w - u))) with ((1 - z) * (u' - u) + z * (w' - w)) by ring.
  assert ((1 - z) * lo <= (1 - z) * (u' - u) <= (1 - z) * hi) by (split; apply Rmult_le_compat_l; lra). assert (z * lo <= z * (w' - w) <= z * hi) by (split; apply Rmult_le_compat_l; lra). lra.
Qed.
Lemma sheet_between : forall s s1 fwds M lo hi t x, tame s fwds M -> su_times s1 = su_times s -> su_money s1 = su_money s -> su_spot s1 = su_spot s -> length (su_grid s1) = length (su_grid s) ->
  (forall i row row1, nth_error (su_grid s) i = Some row -> nth_error (su_grid s1) i = Some row1 -> Forall2 (fun v v1 => lo <= value v1 - value v <= hi) row row1) ->
  lo <= sheet (sheet_rows s1 fwds) t x - sheet (sheet_rows s fwds) t x <= hi.
Proof.
  intros s s1 fwds M lo hi t x T E1 E2 E3 LG CE. pose proof T as [[R1 [R2 R3]] [C1 C2] _ _ _ _]. change (sheet (sheet_rows s fwds) t x) with (piecewise (columns s fwds x) t). change (sheet (sheet_rows s1 fwds) t x) with (piecewise (columns s1 fwds x) t).
  apply (piecewise_over (fun u u' => lo <= u' - u <= hi) (columns s fwds x) (columns s1 fwds x) t).
  - exact (columns_rising s fwds M T x).
  - intro Z. pose proof (columns_length s fwds M T x) as L. rewrite Z in L. cbn in L. lia.
  - apply F2_of_nth.
    + rewrite (columns_length s fwds M T x). unfold columns, sheet_rows. rewrite !map_length, !combine_length, E1, LG. lia.
    + intros i p q P Q. destruct (columns_inv s fwds x i p P) as (a & f & row & Ha & Hf & Hr & ->). destruct (columns_inv s1 fwds x i q Q) as (a' & f' & row1 & Ha' & Hf' & Hr' & ->). cbn [fst snd]. rewrite E1 in Ha'. assert (a' = a) by congruence. assert (f' = f) by congruence. subst a' f'. split; [reflexivity|].
      rewrite E2, E3. destruct (row_gentle s fwds M T i f row Hf Hr) as ((L & FD & SD & _) & _ & LM).
      apply (piecewise_over (fun u u' => lo <= u' - u <= hi)).
      * apply points_rising; assumption.
      * intro Z. assert (N : length (points (forward_money (su_money s) (su_spot s) f) row) = 0%nat) by (rewrite Z; reflexivity). rewrite points_length in N by exact L. lia.
      * pose proof (CE i row row1 Hr Hr') as CR. pose proof (F2_length _ _ _ _ _ CR) as LR. apply F2_of_nth; [rewrite !points_length; congruence|]. intros k y z Y Z. unfold points in Y, Z. apply nth_combine_inv in Y. apply nth_combine_inv in Z. destruct Y as [Y1 Y2]. destruct Z as [Z1 Z2]. split; [congruence|].
        apply nth_map_inv in Y2. apply nth_map_inv in Z2. destruct Y2 as (v & Hv & ->). destruct Z2 as (v1 & Hv1 & ->). exact (F2_nth _ _ _ _ _ k v v1 CR Hv Hv1).
      * intros. apply convex; assumption.
  - intros. apply convex; assumption.
Qed.
Definition bumped (t1 t2 l r : option f32) (bump : f32) (s : surface) : surface := Surface (bump_grid t1 t2 l r bump (su_times s) (su_money s) (su_grid s)) (su_dates s) (su_times s) (su_money s) (su_spot s) (su_interp s) (su_sticky s).
Lemma bumped_cell : forall (v bump : f32) M, finite v -> finite bump -> Rabs (value v) <= M -> M + Rabs (value bump) <= 2 ^ 9 ->
  finite (gadd v bump) /\ Rabs (value (gadd v bump) - (value v + value bump)) <= (M + Rabs (value bump)) * / 2 ^ 24.
Proof.
  intros v bump M Fv Fb Bv HM. assert (A : Rabs (value v + value bump) <= M + Rabs (value bump)) by (apply Rle_trans with (1 := Rabs_triang _ _); lra).
  destruct (add_err v bump _ _ (conj Fv eq_refl) (conj Fb eq_refl)) as (w & d & [Fw Vw] & D & E); [apply two100_127; change (Rabs (value v + value bump) <= two100 * 1000000); pose proof pow60_100 as [_ Q]; lra|]. split; [exact Fw|]. unfold value at 1. rewrite Vw, E. change (B2R v + B2R bump) with (value v + value bump).
  replace ((value v + value bump) * (1 + d) - (value v + value bump)) with ((value v + value bump) * d) by ring. rewrite Rabs_mult. assert (E1 : e24 = / 2 ^ 24) by (unfold e24; f_equal; lra). rewrite <- E1. apply Rmult_le_compat; try apply Rabs_pos; assumption.
Qed.
Lemma bumped_rows : forall s fwds M t1 t2 l r bump, tame s fwds M -> finite bump -> M + Rabs (value bump) <= 2 ^ 9 ->
  forall i row row1, nth_error (su_grid s) i = Some row -> nth_error (su_grid (bumped t1 t2 l r bump s)) i = Some row1 ->
  Forall2 (fun v v1 => v1 = v \/ v1 = gadd v bump) row row1 /\ (t1 = None -> t2 = None -> l = None -> r = None -> Forall2 (fun v v1 => v1 = gadd v bump) row row1).
Proof.
  intros s fwds M t1 t2 l r bump T Fb HM i row row1 Hr Hr1. pose proof T as [[R1 [R2 R3]] [C1 C2] [T1 _] [M1 _] _ [V1 V2]]. assert (I : (i < length (su_times s))%nat) by (rewrite <- R2; apply nth_error_Some; congruence). destruct (at_lt _ (su_times s) i I) as (t & Ht & _).
  cbn [bumped su_grid] in Hr1. rewrite (bump_nth _ _ _ _ _ _ _ _ i t row Ht Hr) in Hr1. rewrite Forall_forall in C2, T1, M1. pose proof (C2 row (nth_error_In _ _ Hr)) as LR. destruct (T1 t (nth_error_In _ _ Ht)) as [Ft Rt]. assert (P10 : 0 < / 2 ^ 10) by (apply Rinv_0_lt_compat; lra).
  assert (row1 = if in_window (from_or t1) (to_or t2) t then map (fun q => if in_window (from_or l) (to_or r) (fst q) then gadd (snd q) bump else snd q) (combine (su_money s) row) else row) by congruence. clear Hr1. subst row1. split.
  - destruct (in_window (from_or t1) (to_or t2) t); [|apply F2_of_nth; [reflexivity|]; intros k x y X Y; left; congruence].
    apply F2_of_nth; [rewrite map_length, combine_length; lia|]. intros k v v1 Hv Hv1. apply nth_map_inv in Hv1. destruct Hv1 as ((m & v') & H & ->). apply nth_combine_inv in H. cbn [fst snd] in *. destruct H as [_ H]. assert (v' = v) by congruence. subst v'. destruct (in_window (from_or l) (to_or r) m); auto.
  - intros -> -> -> ->. assert (W : forall x : f32, finite x -> 0 <= value x <= 2 ^ 10 -> in_window (from_or None) (to_or None) x = true) by (intros x Fx Rx; unfold in_window; rewrite (none_from x Fx Rx), (none_to x Fx Rx); reflexivity).
    rewrite (W t Ft Rt). apply F2_of_nth; [rewrite map_length, combine_length; lia|]. intros k v v1 Hv Hv1. apply nth_map_inv in Hv1. destruct Hv1 as ((m & v') & H & ->). apply nth_combine_inv in H. cbn [fst snd] in *. destruct H as [Hm H]. assert (v' = v) by congruence. subst v'.
    destruct (M1 m (nth_error_In _ _ Hm)) as [Fm Rm]. rewrite (W m Fm ltac:(lra)). reflexivity.
Qed.
Lemma bumped_tame : forall s fwds M t1 t2 l r bump, tame s fwds M -> finite bump -> M + Rabs (value bump) <= 2 ^ 9 -> tame (bumped t1 t2 l r bump s) fwds ((M + Rabs (value bump)) * (1 + / 2 ^ 24)).
Proof.
  intros s fwds M t1 t2 l r bump T Fb HM. pose proof (M_pos s fwds M T) as M0. pose proof (Rabs_pos (value bump)) as A0. pose proof (bumped_rows s fwds M t1 t2 l r bump T Fb HM) as BR. pose proof T as [[R1 [R2 R3]] [C1 C2] TT MM LV [V1 V2]].
  destruct (c180_shape t1 t2 l r bump (su_times s) (su_money s) (su_grid s) R2 C2) as [S1 S2]. split; cbn [bumped su_times su_grid su_money su_spot]; try assumption; auto.
  assert (P24 : 0 <= (M + Rabs (value bump)) * / 2 ^ 24 <= (M + Rabs (value bump)) * 1) by (split; [apply Rmult_le_pos; lra|apply Rmult_le_compat_l; lra]). split; [|lra].
  apply Forall_forall. intros row1 I. apply In_nth_error in I. destruct I as [i Hr1]. assert (I : (i < length (su_grid s))%nat) by (rewrite R2, <- S1; apply nth_error_Some; congruence). destruct (at_lt _ (su_grid s) i I) as (row & Hr & _). destruct (BR i row row1 Hr Hr1) as [F _].
  rewrite Forall_forall in V1. pose proof (V1 row (nth_error_In _ _ Hr)) as VR. clear - F VR Fb HM P24 A0 M0. induction F as [|v v1 row row1 H F IH]; [constructor|]. inversion VR as [|? ? [Fv Bv] VR']; subst. constructor; [|exact (IH VR')].
  destruct H as [->| ->]; [split; [exact Fv|lra]|]. destruct (bumped_cell v bump M Fv Fb Bv HM) as [FF C]. split; [exact FF|]. replace (value (gadd v bump)) with (value (gadd v bump) - (value v + value bump) + (value v + value bump)) by ring. apply Rle_trans with (1 := Rabs_triang _ _). pose proof (Rabs_triang (value v) (value bump)). lra.
Qed.
(** every point of the surface moves with the bump, or not at all, or in between *)
Theorem c180_surface : forall e s s0 fwds M t1 t2 l r bump, tame s fwds M -> forwards e (sticky_spot e s) s fwds -> vol_build e s = Ret (ROk s0) -> finite bump -> M + Rabs (value bump) <= 2 ^ 9 ->
  let b := value bump in let err := (M + Rabs b) * (60 / 2 ^ 24) + / 2 ^ 69 in
  exists s1, bump_surface e t1 t2 l r bump s0 = Ret (ROk s1) /\ forall t x, finite t -> finite x -> exists y0 y1, surface_value s0 t x = Ret y0 /\ surface_value s1 t x = Ret y1 /\ finite y1 /\
    Rmin 0 b - err <= value y1 - value y0 <= Rmax 0 b + err /\ (t1 = None -> t2 = None -> l = None -> r = None -> Rabs (value y1 - (value y0 + b)) <= err).
Proof.
  intros e s s0 fwds M t1 t2 l r bump T FW B Fb HM b err. destruct (build_inv e s s0 B) as (_ & _ & _ & _ & _ & ES). pose proof (M_pos s fwds M T) as M0. pose proof (Rabs_pos b) as A0. fold b in HM.
  set (s2 := bumped t1 t2 l r bump s0). assert (E2 : s2 = bumped t1 t2 l r bump (with_interp s (su_interp s0))) by (unfold s2; rewrite <- ES; reflexivity).
  assert (T2 : tame s2 fwds ((M + Rabs b) * (1 + / 2 ^ 24))). { rewrite E2. apply (bumped_tame (with_interp s (su_interp s0))); try assumption. destruct T; split; assumption. }
  assert (F2 : forwards e (sticky_spot e s2) s2 fwds) by (rewrite E2; exact FW). destruct (c176_builds e s2 fwds _ T2 F2) as (s1 & B1 & _). exists s1. split; [exact B1|]. intros t x Ft Fx.
  destruct (c176_accurate e s s0 fwds M t x T FW B Ft Fx) as (y0 & Y0 & F0 & C0 & _). destruct (c176_accurate e s2 s1 fwds _ t x T2 F2 B1 Ft Fx) as (y1 & Y1 & F1 & C1 & _). exists y0, y1. split; [exact Y0|]. split; [exact Y1|]. split; [exact F1|].
  set (E := (M + Rabs b) * / 2 ^ 24). assert (E0 : 0 <= E) by (apply Rmult_le_pos; lra).
  assert (EB : 25 * / 2 ^ 24 * M + / 2 ^ 70 + (25 * / 2 ^ 24 * ((M + Rabs b) * (1 + / 2 ^ 24)) + / 2 ^ 70) + E <= err).
  { assert (P : / 2 ^ 69 = 2 * / 2 ^ 70) by (change 70%nat with (1 + 69)%nat; rewrite pow_add; field; apply pow_nonzero; lra). unfold err. rewrite P.
    assert (25 * / 2 ^ 24 * M <= 25 * E) by (unfold E; rewrite Rmult_assoc, (Rmult_comm (/ 2 ^ 24)); apply Rmult_le_compat_l; [lra|]; apply Rmult_le_compat_r; lra).
    assert (25 * / 2 ^ 24 * ((M + Rabs b) * (1 + / 2 ^ 24)) = 25 * E + 25 * E * / 2 ^ 24) by (unfold E; ring). assert (25 * E * / 2 ^ 24 <= 25 * E * / 25) by (apply Rmult_le_compat_l; lra). assert ((M + Rabs b) * (60 / 2 ^ 24) = 60 * E) by (unfold E; field). lra. }
  assert (ROWS : forall i row row1, nth_error (su_grid s) i = Some row -> nth_error (su_grid s2) i = Some row1 ->
     Forall2 (fun v v1 => Rmin 0 b - E <= value v1 - value v <= Rmax 0 b + E) row row1 /\ (t1 = None -> t2 = None -> l = None -> r = None -> Forall2 (fun v v1 => b - E <= value v1 - value v <= b + E) row row1)).
  { intros i row row1 Hr Hr1. rewrite E2 in Hr1. destruct (bumped_rows s fwds M t1 t2 l r bump T Fb HM i row row1 Hr Hr1) as [P1 P2]. pose proof T as [_ _ _ _ _ [V1 _]]. rewrite Forall_forall in V1. pose proof (V1 row (nth_error_In _ _ Hr)) as VR. rewrite Forall_forall in VR.
    assert (CE : forall v, In v row -> b - E <= value (gadd v bump) - value v <= b + E). { intros v I. destruct (VR v I) as [Fv Bv]. destruct (bumped_cell v bump M Fv Fb Bv HM) as [_ C]. fold b in C. fold E in C. apply Rabs_le_inv in C. lra. }
    pose proof (Rmin_l 0 b). pose proof (Rmin_r 0 b). pose proof (Rmax_l 0 b). pose proof (Rmax_r 0 b). split.
    - apply F2_of_nth; [exact (F2_length _ _ _ _ _ P1)|]. intros k v v1 Hv Hv1. pose proof (CE v (nth_error_In _ _ Hv)). destruct (F2_nth _ _ _ _ _ k v v1 P1 Hv Hv1) as [->| ->]; lra.
    - intros N1 N2 N3 N4. specialize (P2 N1 N2 N3 N4). apply F2_of_nth; [exact (F2_length _ _ _ _ _ P2)|]. intros k v v1 Hv Hv1. pose proof (F2_nth _ _ _ _ _ k v v1 P2 Hv Hv1) as ->. exact (CE v (nth_error_In _ _ Hv)). }
  assert (LG : length (su_grid s2) = length (su_grid s)) by (destruct T as [[_ [R2 _]] _ _ _ _ _]; destruct T2 as [[_ [R2' _]] _ _ _ _ _]; rewrite R2, R2', E2; reflexivity).
  apply Rabs_le_inv in C0. apply Rabs_le_inv in C1. split.
  - pose proof (sheet_between s s2 fwds M (Rmin 0 b - E) (Rmax 0 b + E) (value t) (value x) T ltac:(rewrite E2; reflexivity) ltac:(rewrite E2; reflexivity) ltac:(rewrite E2; reflexivity) LG (fun i row row1 H H1 => proj1 (ROWS i row row1 H H1))) as S. lra.
  - intros N1 N2 N3 N4. pose proof (sheet_between s s2 fwds M (b - E) (b + E) (value t) (value x) T ltac:(rewrite E2; reflexivity) ltac:(rewrite E2; reflexivity) ltac:(rewrite E2; reflexivity) LG (fun i row row1 H H1 => proj2 (ROWS i row row1 H H1) N1 N2 N3 N4)) as S. apply Rabs_le. lra.
Qed.
(** a bump and its opposite: the grid again, within two roundings *)
Theorem c180_undone : forall t1 t2 l r bump times money grid M i j v, length grid = length times -> Forall (fun row => length row = length money) grid -> finite bump -> M + Rabs (value bump) <= 2 ^ 9 ->
  cell grid i j = Some v -> finite v -> Rabs (value v) <= M ->
  exists w, cell (bump_grid t1 t2 l r (gneg bump) times money (bump_grid t1 t2 l r bump times money grid)) i j = Some w /\ finite w /\ Rabs (value w - value v) <= (M + 2 * Rabs (value bump)) * (3 / 2 ^ 24).
Proof.
  intros t1 t2 l r bump times money grid M i j v LG FG Fb HM C Fv Bv. unfold cell in *. destruct (nth_error grid i) as [row|] eqn:Hr; [|discriminate C]. assert (I : (i < length times)%nat) by (rewrite <- LG; apply nth_error_Some; congruence). destruct (at_lt _ times i I) as (t & Ht & _).
  rewrite Forall_forall in FG. pose proof (FG row (nth_error_In _ _ Hr)) as LR. assert (J : (j < length money)%nat) by (rewrite <- LR; apply nth_error_Some; congruence). destruct (at_lt _ money j J) as (m & Hm & _).
  rewrite (bump_nth _ _ _ _ _ _ _ _ i t _ Ht (bump_nth _ _ _ _ _ _ _ _ i t row Ht Hr)). pose proof (Rabs_pos (value bump)) as A0. assert (M0 : 0 <= M) by (apply Rle_trans with (2 := Bv); apply Rabs_pos).
  assert (SAME : Rabs (value v - value v) <= (M + 2 * Rabs (value bump)) * (3 / 2 ^ 24)) by (rewrite Rminus_diag_eq by reflexivity; rewrite Rabs_R0; apply Rmult_le_pos; lra).
  destruct (in_window (from_or t1) (to_or t2) t); [|exists v; auto].
  rewrite (map_combine_twice (fun x v => if in_window (from_or l) (to_or r) x then gadd v bump else v) (fun x v => if in_window (from_or l) (to_or r) x then gadd v (gneg bump) else v) money row).
  erewrite map_nth_error; [|apply nth_combine; eassumption]. cbn [fst snd]. destruct (in_window (from_or l) (to_or r) m); [|exists v; auto]. eexists. split; [reflexivity|].
  destruct (bumped_cell v bump M Fv Fb Bv HM) as [F1 C1]. destruct (fin_neg 24 128 bump _ (conj Fb eq_refl)) as [Fn Vn]. set (w := gadd v bump) in *. apply Rabs_le_inv in C1. assert (Q : (M + Rabs (value bump)) * / 2 ^ 24 <= M + Rabs (value bump)) by (rewrite <- (Rmult_1_r (M + Rabs (value bump))) at 2; apply Rmult_le_compat_l; lra).
  assert (Bw : Rabs (value w + value (gneg bump)) <= M + (M + Rabs (value bump)) * / 2 ^ 24) by (unfold value at 2; rewrite Vn; fold (value bump); apply Rabs_le; apply Rabs_le_inv in Bv; lra).
  destruct (add_err w (gneg bump) _ _ (conj F1 eq_refl) (conj Fn eq_refl)) as (z & d & [Fz Vz] & D & E); [apply two100_127; change (Rabs (value w + value (gneg bump)) <= two100 * 1000000); pose proof pow60_100 as [_ Q']; lra|]. split; [exact Fz|]. unfold value at 1. rewrite Vz, E. change (B2R w + B2R (gneg bump)) with (value w + value (gneg bump)).
  assert (E1 : e24 = / 2 ^ 24) by (unfold e24; f_equal; lra). rewrite E1 in D.
  assert (X : Rabs ((value w + value (gneg bump)) * d) <= (M + (M + Rabs (value bump)) * / 2 ^ 24) * / 2 ^ 24) by (rewrite Rabs_mult; apply Rmult_le_compat; try apply Rabs_pos; assumption).
  assert (Y : (M + (M + Rabs (value bump)) * / 2 ^ 24) * / 2 ^ 24 <= (M + (M + Rabs (value bump))) * / 2 ^ 24) by (apply Rmult_le_compat_r; lra).
  apply Rabs_le_inv in X. assert (VN : value (gneg bump) = - value bump) by exact Vn. rewrite VN in *. replace ((value w + - value bump) * (1 + d) - value v) with (value w - (value v + value bump) + (value w + - value bump) * d) by ring. apply Rabs_le. lra.
Qed.
(** REFUTED: exactly the grid again *)
Definition quarter : f32 := gdiv (gof_Z 1) (gof_Z 4).
Definition hundredth : f32 := gdiv (gof_Z 1) (gof_Z 100).
Definition undone_check : bool := match bump_grid None None None None (gneg hundredth) [gof_Z 1] [gof_Z 1] (bump_grid None None None None hundredth [gof_Z 1] [gof_Z 1] [[quarter]]) with [[w]] => is_finite w && negb (geq w quarter) | _ => false end.
Theorem c180_undone_refuted : exists w, bump_grid None None None None (gneg hundredth) [gof_Z 1] [gof_Z 1] (bump_grid None None None None hundredth [gof_Z 1] [gof_Z 1] [[quarter]]) = [[w]] /\ finite w /\ value w <> value quarter.
Proof.
  assert (B : undone_check = true) by (vm_compute; reflexivity). unfold undone_check in B. destruct (bump_grid None None None None (gneg hundredth) [gof_Z 1] [gof_Z 1] (bump_grid None None None None hundredth [gof_Z 1] [gof_Z 1] [[quarter]])) as [|[|w [|? ?]] [|? ?]]; try discriminate B.
  apply andb_prop in B. destruct B as [F N]. exists w. split; [reflexivity|]. split; [exact F|]. intro E. assert (FT : finite quarter) by (vm_compute; reflexivity). apply (proj2 (fin_eq 24 128 _ _ _ _ (conj F eq_refl) (conj FT eq_refl))) in E. rewrite E in N. discriminate N.
Qed.

(** ** C181: sticky to moneyness, sticky to the strike *)
(** the same surface at another market price *)
Definition at_price (e : vol_env) (p : f32) : vol_env := VolEnv (ve_eval e) (ve_coll e) (ve_borrow e) p (ve_div e).
Theorem c181_moneyness : forall e p s, su_sticky s = StickyToMoneyness -> vol_build (at_price e p) s = vol_build e s.
Proof. intros e p s S. unfold vol_build. rewrite S. reflexivity. Qed.
(** built again at any market price, the volatility of the strike m * spot at a
    tenor is its cell of the grid: an option looks it up at strike / forward *)
Theorem c181_strike : forall e p s s' fwds M i j t f row m v, su_sticky s = StickyToStrike -> tame s fwds M ->
  Forall2 (fun d F => fair_forward (ve_eval e) (ve_coll e) (ve_borrow e) p (ve_div e) d = Ret (ROk F)) (su_dates s) fwds -> vol_build (at_price e p) s = Ret (ROk s') ->
  nth_error (su_times s) i = Some t -> nth_error fwds i = Some f -> nth_error (su_grid s) i = Some row -> nth_error (su_money s) j = Some m -> nth_error row j = Some v ->
  let strike := gmul m (su_spot s) in exists y, surface_value s' t (gdiv strike f) = Ret y /\ finite y /\ value y = value v.
Proof.
  intros e p s s' fwds M i j t f row m v S T FW B Ht Hf Hr Hm Hv strike. assert (F : forwards (at_price e p) (sticky_spot (at_price e p) s) s fwds) by (unfold forwards, sticky_spot; rewrite S; exact FW).
  exact (c176_knots (at_price e p) s s' fwds M i j t f row m v T F B Ht Hf Hr Hm Hv).
Qed.
(** REFUTED: the surface follows the market price only when it is built again:
    moving the price alone (as the engine does for its deltas) moves the
    volatility of a strike *)
Definition smile : surface_data := quotes_of [gof_Z 100; gof_Z 200] [sixteenth; eighth].
Definition vol_is (s : surface) (t x v : f32) : bool := match surface_value s t x with Ret y => geq y v | _ => false end.
Definition smile_check (c : outcome (rresult curve)) : bool :=
  match c with
  | Ret (ROk c) =>
      match with_market_surface (ex_env c) StickyToStrike smile ex_tenors ex_money with
      | Ret (ROk s) =>
          match vol_build (ex_env c) s, vol_build (at_price (ex_env c) (gof_Z 50)) s with
          | Ret (ROk s100), Ret (ROk s50) =>
              match vol_forward (ex_env c) (gof_Z 50) (hd ex_eval quote_dates), vol_forward (ex_env c) (gof_Z 100) (hd ex_eval quote_dates), get_time_difference ex_eval (hd ex_eval quote_dates) with
              | Ret (ROk f50), Ret (ROk f100), Ret t => vol_is s100 t (gdiv (gof_Z 100) f100) sixteenth && vol_is s50 t (gdiv (gof_Z 100) f50) sixteenth && vol_is s100 t (gdiv (gof_Z 100) f50) eighth
              | _, _, _ => false
              end
          | _, _ => false
          end
      | _ => false
      end
  | _ => false
  end.
Lemma vol_is_ok : forall s t x v, vol_is s t x v = true -> exists y, surface_value s t x = Ret y /\ geq y v = true.
Proof. intros s t x v H. unfold vol_is in H. destruct (surface_value s t x) as [y| |]; try discriminate H. eauto. Qed.
Lemma smile_ok : forall oc, smile_check oc = true -> exists c s s100 s50 f50 f100 t y1 y2 y3, oc = Ret (ROk c) /\ with_market_surface (ex_env c) StickyToStrike smile ex_tenors ex_money = Ret (ROk s) /\
  vol_build (ex_env c) s = Ret (ROk s100) /\ vol_build (at_price (ex_env c) (gof_Z 50)) s = Ret (ROk s50) /\ vol_forward (ex_env c) (gof_Z 50) (hd ex_eval quote_dates) = Ret (ROk f50) /\ vol_forward (ex_env c) (gof_Z 100) (hd ex_eval quote_dates) = Ret (ROk f100) /\
  get_time_difference ex_eval (hd ex_eval quote_dates) = Ret t /\ surface_value s100 t (gdiv (gof_Z 100) f100) = Ret y1 /\ geq y1 sixteenth = true /\ surface_value s50 t (gdiv (gof_Z 100) f50) = Ret y2 /\ geq y2 sixteenth = true /\
  surface_value s100 t (gdiv (gof_Z 100) f50) = Ret y3 /\ geq y3 eighth = true.
Proof.
  intros oc B. unfold smile_check in B. destruct oc as [[c|]| |]; [|discriminate B|discriminate B|discriminate B].
  destruct (with_market_surface (ex_env c) StickyToStrike smile ex_tenors ex_money) as [[s|]| |] eqn:ES; [|discriminate B|discriminate B|discriminate B].
  destruct (vol_build (ex_env c) s) as [[s100|]| |] eqn:E1; [|discriminate B|discriminate B|discriminate B]. destruct (vol_build (at_price (ex_env c) (gof_Z 50)) s) as [[s50|]| |] eqn:E2; [|discriminate B|discriminate B|discriminate B].
  destruct (vol_forward (ex_env c) (gof_Z 50) (hd ex_eval quote_dates)) as [[f50|]| |] eqn:E3; [|discriminate B|discriminate B|discriminate B].
  destruct (vol_forward (ex_env c) (gof_Z 100) (hd ex_eval quote_dates)) as [[f100|]| |] eqn:E4; [|discriminate B|discriminate B|discriminate B]. destruct (get_time_difference ex_eval (hd ex_eval quote_dates)) as [t| |] eqn:E5; [|discriminate B|discriminate B].
  apply andb_prop in B. destruct B as [B B3]. apply andb_prop in B. destruct B as [B1 B2]. destruct (vol_is_ok _ _ _ _ B1) as (y1 & Y1 & G1). destruct (vol_is_ok _ _ _ _ B2) as (y2 & Y2 & G2). destruct (vol_is_ok _ _ _ _ B3) as (y3 & Y3 & G3).
  exists c, s, s100, s50, f50, f100, t, y1, y2, y3. repeat (split; [first [reflexivity|assumption]|]). exact G3.
Qed.
Theorem c181_stale_refuted : forall f_exp, good_exp f_exp -> exists c s s100 s50 f50 f100 t y1 y2 y3, curve_new f_exp ex_eval zero_data = Ret (ROk c) /\ with_market_surface (ex_env c) StickyToStrike smile ex_tenors ex_money = Ret (ROk s) /\
  vol_build (ex_env c) s = Ret (ROk s100) /\ vol_build (at_price (ex_env c) (gof_Z 50)) s = Ret (ROk s50) /\ vol_forward (ex_env c) (gof_Z 50) (hd ex_eval quote_dates) = Ret (ROk f50) /\ vol_forward (ex_env c) (gof_Z 100) (hd ex_eval quote_dates) = Ret (ROk f100) /\
  get_time_difference ex_eval (hd ex_eval quote_dates) = Ret t /\ surface_value s100 t (gdiv (gof_Z 100) f100) = Ret y1 /\ geq y1 sixteenth = true /\ surface_value s50 t (gdiv (gof_Z 100) f50) = Ret y2 /\ geq y2 sixteenth = true /\
  surface_value s100 t (gdiv (gof_Z 100) f50) = Ret y3 /\ geq y3 eighth = true.
Proof. intros f_exp G. rewrite (zero_curve f_exp G). apply smile_ok. vm_compute. reflexivity. Qed.

Example c180_hypotheses_met : (exists e s s0 fwds, tame s fwds 1 /\ forwards e (sticky_spot e s) s fwds /\ vol_build e s = Ret (ROk s0)) /\ finite hundredth /\ 1 + Rabs (value hundredth) <= 2 ^ 9 /\ apart ex_money /\
  bound_at ex_money (Some 0%nat) (Some (gof_Z 1)) /\ bound_at ex_money None None /\ cell [[quarter; quarter]; [quarter; quarter]] 1 1 = Some quarter /\ finite quarter /\ Rabs (value quarter) <= 1 /\ value (gof_Z 1) <= value (gof_Z 1) <= value (gof_Z 2).
Proof.
  split; [destruct c178_hypotheses_met as (e & s & s' & times & fwds & t & m & row & v & f & H & TI & TQ & T & FW & B & _); exists e, s, s', fwds; auto|].
  destruct (small_fin 1 ltac:(lia)) as [F1 R1]. destruct (small_fin 2 ltac:(lia)) as [F2 R2]. change real_of with value in *.
  assert (HB : between 0 1 hundredth = true) by (vm_compute; reflexivity). destruct (between_ok 0 1 _ ltac:(lia) ltac:(lia) HB) as [FH RH]. assert (QB : between 0 1 quarter = true) by (vm_compute; reflexivity). destruct (between_ok 0 1 _ ltac:(lia) ltac:(lia) QB) as [FQ RQ].
  split; [exact FH|]. split; [rewrite Rabs_pos_eq by lra; lra|]. split; [split; [repeat first [apply Forall_nil|apply Forall_cons|split]; try assumption; rewrite ?R1, ?R2; lra|apply two_steps; rewrite R1, R2; assert (/ 2 ^ 10 <= 1) by (rewrite <- Rinv_1; apply Rinv_le; lra); lra]|].
  split; [reflexivity|]. split; [exact I|]. split; [reflexivity|]. split; [exact FQ|]. split; [apply Rabs_le; lra|rewrite R1, R2; lra].
Qed.
Example c181_hypotheses_met : exists e s s' fwds t f row m v, su_sticky s = StickyToStrike /\ tame s fwds 1 /\ Forall2 (fun d F => fair_forward (ve_eval e) (ve_coll e) (ve_borrow e) (gof_Z 100) (ve_div e) d = Ret (ROk F)) (su_dates s) fwds /\
  vol_build (at_price e (gof_Z 100)) s = Ret (ROk s') /\ nth_error (su_times s) 1 = Some t /\ nth_error fwds 1 = Some f /\ nth_error (su_grid s) 1 = Some row /\ nth_error (su_money s) 1 = Some m /\ nth_error row 1 = Some v.
Proof.
  destruct (ex_surface StickyToStrike) as (f_exp & c & s & fwds & G & H & E & T & F & _ & SS & _). destruct (c176_builds _ _ _ _ T F) as (s' & B & _). destruct (c177_grid _ _ _ _ _ _ E) as (_ & MO & ST & _ & _ & _ & GR). rewrite SS in F.
  pose proof T as [[R1 [R2 R3]] [C1 C2] _ _ LV _]. destruct (at_lt _ (su_times s) 1%nat ltac:(lia)) as (t & Ht & _). destruct (at_lt _ fwds 1%nat ltac:(lia)) as (f & Hf & _). destruct (at_lt _ (su_grid s) 1%nat ltac:(lia)) as (row & Hr & _). destruct (at_lt _ (su_money s) 1%nat ltac:(lia)) as (m & Hm & _).
  rewrite Forall_forall in C2. pose proof (C2 row (nth_error_In _ _ Hr)) as LR. destruct (at_lt _ row 1%nat ltac:(lia)) as (v & Hv & _). exists (ex_env c), s, s', fwds, t, f, row, m, v. split; [exact ST|]. split; [exact T|]. split; [exact F|]. split; [exact B|]. auto.
Qed.
Print Assumptions c180_cells.
Print Assumptions c180_shape.
Print Assumptions c180_adjacent_times.
Print Assumptions c180_adjacent_moneyness.
Print Assumptions c180_lower_refuted.
Print Assumptions c180_surface.
Print Assumptions c180_undone.
Print Assumptions c180_undone_refuted.
Print Assumptions c181_moneyness.
Print Assumptions c181_strike.
Print Assumptions c181_stale_refuted.
