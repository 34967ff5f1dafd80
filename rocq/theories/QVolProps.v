(** QVolProps.v -- C176 and C177: volatility surfaces. *)
From Coq Require Import ZArith Arith Ascii String.
From Coq Require Import List Bool Lia Reals Lra.
From Flocq Require Import Core IEEE754.BinarySingleNaN.
From Verif Require Import Base FloatModel FloatFacts KrxModel QDateModel QYearModel QPeriodModel QFindModel QFindSpec QFindProofs QFindProps QInterpModel QInterpSpec QInterpProofs QFloatErr QLinProofs QLinProps QBilinProps
  QDivModel QDivSpec QDivProps QSwapModel QSwapSpec QSwapProps QBondProofs QCurveModel QCurveFacts QCurveExp QCurveProps QCurveFwdProps QBondSpec QBondPriceProps QMoneyModel QFutModel QFutProps QOptProofs QVolModel QVolSpec QVolProofs QPeriodSpec QCurveSpec.
Import ListNotations.
Open Scope R_scope.

(** ** C176: the surface through its grid *)
Theorem c176_builds : forall e s fwds M, tame s fwds M -> forwards e (sticky_spot e s) s fwds ->
  exists s', vol_build e s = Ret (ROk s') /\ su_grid s' = su_grid s /\ su_dates s' = su_dates s /\ su_times s' = su_times s /\ su_money s' = su_money s /\ su_spot s' = su_spot s /\ su_sticky s' = su_sticky s.
Proof. intros e s fwds M T F. destruct (builds e s fwds M T F) as (b & E). exists (with_interp s b). repeat split. exact E. Qed.
Theorem c176_accurate : forall e s s' fwds M t x, tame s fwds M -> forwards e (sticky_spot e s) s fwds -> vol_build e s = Ret (ROk s') -> finite t -> finite x ->
  exists y, surface_value s' t x = Ret y /\ finite y /\ Rabs (value y - sheet (sheet_rows s fwds) (value t) (value x)) <= 25 * / 2 ^ 24 * M + / 2 ^ 70 /\
    surface_variance s' t x = Ret (ROk (gmul (gmul y y) t)) /\ surface_deviation s' t x = Ret (ROk (gmul y (gsqrt t))).
Proof.
  intros e s s' fwds M t x T F B Ft Fx. destruct (surface_close e s s' fwds M T F B t x Ft Fx) as (y & E & Fy & C). exists y.
  unfold surface_value, surface_variance, surface_deviation. rewrite E. cbn [obind rbind]. auto.
Qed.
Theorem c176_knots : forall e s s' fwds M i j t f row m v, tame s fwds M -> forwards e (sticky_spot e s) s fwds -> vol_build e s = Ret (ROk s') ->
  nth_error (su_times s) i = Some t -> nth_error fwds i = Some f -> nth_error (su_grid s) i = Some row -> nth_error (su_money s) j = Some m -> nth_error row j = Some v ->
  exists y, surface_value s' t (gdiv (gmul m (su_spot s)) f) = Ret y /\ finite y /\ value y = value v.
Proof.
  intros e s s' fwds M i j t f row m v T F B Ht Hf Hr Hm Hv. destruct (surface_knot e s s' fwds M T F B i j t f row m v Ht Hf Hr Hm Hv) as (y & E & Fy & V). exists y.
  unfold surface_value. rewrite E. auto.
Qed.
(** the knot of a moneyness is that of the spot price carried over to the forward,
    within three roundings *)
Theorem c176_moneyness : forall m s f : f32, finite m -> finite s -> finite f -> / 2 ^ 10 <= value m <= 2 ^ 10 -> / 2 ^ 20 <= value s <= 2 ^ 30 -> / 2 ^ 20 <= value f <= 2 ^ 30 ->
  finite (gdiv (gmul m s) f) /\ Rabs (value (gdiv (gmul m s) f) / (value m * value s / value f) - 1) <= 3 * / 2 ^ 24.
Proof.
  intros m s f Fm Fs Ff M S F. destruct (fm_value m s f Fm Fs Ff M S F) as (d & D & [X V]). split; [exact X|]. destruct (level_range _ _ _ M S F) as [_ R1]. assert (0 < / 2 ^ 60) by (apply Rinv_0_lt_compat; lra).
  unfold value at 1. rewrite V. replace (value m * value s / value f * (1 + d) / (value m * value s / value f) - 1) with d by (field; assert (0 < / 2 ^ 20) by (apply Rinv_0_lt_compat; lra); assert (0 < / 2 ^ 10) by (apply Rinv_0_lt_compat; lra); lra).
  apply Rle_trans with (1 := D). unfold e24. lra.
Qed.
Theorem c176_between : forall e s s' fwds M lo hi t x y, tame s fwds M -> forwards e (sticky_spot e s) s fwds -> vol_build e s = Ret (ROk s') ->
  Forall (Forall (fun v => lo <= value v <= hi)) (su_grid s) -> finite t -> finite x -> surface_value s' t x = Ret y ->
  lo - (25 * / 2 ^ 24 * M + / 2 ^ 70) <= value y <= hi + (25 * / 2 ^ 24 * M + / 2 ^ 70).
Proof.
  intros e s s' fwds M lo hi t x y T F B G Ft Fx E. destruct (c176_accurate e s s' fwds M t x T F B Ft Fx) as (y' & E' & _ & C & _). rewrite E in E'. injection E' as <-.
  assert (H : lo <= sheet (sheet_rows s fwds) (value t) (value x) <= hi).
  { change (sheet (sheet_rows s fwds) (value t) (value x)) with (piecewise (columns s fwds (value x)) (value t)). apply piecewise_between.
    - exact (columns_rising s fwds M T (value x)).
    - intro Z. pose proof (columns_length s fwds M T (value x)) as L. rewrite Z in L. destruct T as [[R1 _] _ _ _ _ _]. cbn in L. lia.
    - apply Forall_forall. intros p I. exact (column_between s fwds M T (value x) p lo hi I G). }
  apply Rabs_le_inv in C. lra.
Qed.

(** whatever the surface and the point: an answer *)
Lemma flat_ok : forall l x, l_allow l = true -> l_extra l = XFlat -> linear_interpolate l x <> Ret RErr.
Proof.
  intros l x A X H. unfold linear_interpolate, linear_at in H. rewrite A, X in H. destruct (at_ (l_domain l) 0) as [d0| |]; cbn [obind] in H; try discriminate H.
  destruct (o_lt fcmp x d0); [destruct (at_ (l_value l) 0); discriminate H|]. destruct (minus_ (length (l_domain l)) 1) as [i9| |]; cbn [obind] in H; try discriminate H.
  destruct (at_ (l_domain l) i9) as [d9| |]; cbn [obind] in H; try discriminate H. destruct (o_ge fcmp x d9); [destruct (at_ (l_value l) i9); discriminate H|].
  destruct (binary_search_index fcmp (l_domain l) x) as [i| |]; cbn [obind] in H; try discriminate H. unfold line in H. destruct (at_ (l_value l) i); cbn [obind] in H; try discriminate H. destruct (at_ (l_slopes l) i); cbn [obind] in H; try discriminate H. destruct (at_ (l_domain l) i); discriminate H.
Qed.
Theorem c176_answers : forall e s s' t x, vol_build e s = Ret (ROk s') -> (2 <= length (su_times s))%nat -> (2 <= length (su_money s))%nat -> exists v, surface_value s' t x = Ret v.
Proof.
  intros e s s' t x B L2 C2. destruct (build_inv e s s' B) as (fwds & ls & F & L & N & _). destruct (bnew_inv _ _ _ _ _ N) as (LL & _ & E).
  assert (ROW : forall i l, nth_error ls i = Some l -> exists v, linear_interpolate l x = Ret (ROk v)).
  { intros i l Hl. assert (I : (i < length (combine fwds (su_grid s)))%nat) by (rewrite (F2_length _ _ _ _ _ L); apply nth_error_Some; congruence).
    destruct (at_lt _ _ i I) as (p & Hp & _). pose proof (F2_nth _ _ _ _ _ i p l L Hp Hl) as Q. cbn beta in Q.
    destruct (c113_answers _ _ _ _ l x Q ltac:(unfold forward_money; rewrite map_length; exact C2)) as (r & Er). destruct r as [v|]; [exists v; exact Er|exfalso].
    destruct (linear_new_cases (forward_money (su_money s) (su_spot s) (fst p)) (snd p) XFlat true) as [(_ & Z)|[(_ & _ & Z)|[(_ & _ & _ & Z)|(_ & _ & _ & Z)]]]; rewrite Q in Z; try discriminate Z. injection Z as ->.
    exact (flat_ok (Linear _ _ _ XFlat true) x eq_refl eq_refl Er). }
  unfold surface_value, vol_at. rewrite E. unfold bilinear_interpolate. cbn [b_t b_x b_allow b_extra].
  assert (AT : forall i, (i < length (su_times s))%nat -> exists v, (let! l := at_ ls i in linear_interpolate l x) = Ret (ROk v)).
  { intros i I. destruct (at_lt _ ls i ltac:(lia)) as (l & Hl & ->). cbn [obind]. exact (ROW i l Hl). }
  destruct (at_lt _ (su_times s) 0%nat ltac:(lia)) as (t0 & H0 & ->). cbn [obind]. destruct (o_lt fcmp t t0); [destruct (AT 0%nat ltac:(lia)) as (v & ->); cbn [obind]; eauto|].
  unfold minus_ at 1. destruct (Nat.leb_spec 1 (length (su_times s))); [|lia]. cbn [obind]. destruct (at_lt _ (su_times s) (length (su_times s) - 1)%nat ltac:(lia)) as (t9 & H9 & ->). cbn [obind].
  destruct (o_ge fcmp t t9) eqn:G9; [destruct (AT (length (su_times s) - 1)%nat ltac:(lia)) as (v & ->); cbn [obind]; eauto|].
  assert (NN : su_times s <> []) by (intro Z; rewrite Z in L2; cbn in L2; lia). destruct (bs_total fcmp (su_times s) t NN) as (i & Ei & Li). pose proof (inside_next (su_times s) t t9 i L2 H9 G9 Ei) as I1. rewrite Ei. cbn [obind].
  destruct (at_lt _ (su_times s) i Li) as (a & _ & ->). cbn [obind]. destruct (at_lt _ (su_times s) (i + 1)%nat I1) as (b & _ & ->). cbn [obind].
  destruct (AT i Li) as (v1 & ->). cbn [rbind]. destruct (AT (i + 1)%nat I1) as (v2 & ->). cbn [rbind obind]. eauto.
Qed.
(** REFUTED without tenors: not an error, a panic *)
Theorem c176_no_tenor_refuted : forall e k vol money, exists s, with_constant_volatility e k vol [] money = Ret (ROk s) /\ vol_build e s = Panic.
Proof. intros. eexists. split; reflexivity. Qed.

(** ** C177: a surface of one volatility is that volatility *)
Lemma same_float : forall x y : f32, finite x -> finite y -> value x = value y -> value y <> 0 -> x = y.
Proof.
  assert (S : forall z : f32, finite z -> value z <> 0 -> is_finite_strict z = true) by (intros [s|s| |s m e H] F N; try discriminate F; [exfalso; apply N; reflexivity|reflexivity]).
  intros x y Fx Fy E N. apply B2R_inj; [apply S; congruence|apply S; assumption|exact E].
Qed.
Lemma repeat_all : forall A (x : A) n, Forall (fun y => y = x) (repeat x n).
Proof. intros. apply Forall_forall. intros y I. exact (repeat_spec _ _ _ I). Qed.
Theorem c177_grid : forall e k vol tenors money s, with_constant_volatility e k vol tenors money = Ret (ROk s) ->
  su_spot s = ve_price e /\ su_money s = money /\ su_sticky s = k /\ Forall2 (fun p d => add_period (ve_eval e) p = Ret d) tenors (su_dates s) /\ times_of (ve_eval e) (su_dates s) (su_times s) /\
  length (su_grid s) = length tenors /\ Forall (fun row => length row = length money /\ Forall (fun v => v = vol) row) (su_grid s).
Proof.
  intros e k vol tenors money s E. unfold with_constant_volatility in E. destruct (map_out (add_period (ve_eval e)) tenors) as [dates| |] eqn:D; cbn [obind] in E; try discriminate E.
  destruct (map_out (get_time_difference (ve_eval e)) dates) as [times| |] eqn:T; cbn [obind] in E; try discriminate E. injection E as <-. cbn.
  pose proof (map_out_length _ _ _ _ _ D) as LD. pose proof (map_out_length _ _ _ _ _ T) as LT.
  split; [reflexivity|]. split; [reflexivity|]. split; [reflexivity|]. split; [exact (map_out_forall2 _ _ _ _ _ D)|]. split; [exact (map_out_forall2 _ _ _ _ _ T)|]. split; [rewrite repeat_length; congruence|].
  apply Forall_forall. intros row I. apply repeat_spec in I. subst row. split; [apply repeat_length|apply repeat_all].
Qed.
Theorem c177_flat : forall e k vol tenors money s s' fwds M t x, with_constant_volatility e k vol tenors money = Ret (ROk s) ->
  tame s fwds M -> forwards e (sticky_spot e s) s fwds -> vol_build e s = Ret (ROk s') -> finite t -> finite x ->
  exists y, surface_value s' t x = Ret y /\ finite y /\ value y = value vol.
Proof.
  intros e k vol tenors money s s' fwds M t x E T F B Ft Fx. destruct (c177_grid e k vol tenors money s E) as (_ & _ & _ & _ & _ & _ & G).
  destruct (surface_const e s s' fwds M vol t x T F B) as (y & Ey & Fy & Vy); try assumption.
  - eapply Forall_impl; [|exact G]. cbn. intros row [_ H]. exact H.
  - exists y. unfold surface_value. rewrite Ey. auto.
Qed.
(** so an option is worth the same, bit by bit, under the surface and under the
    constant *)
Theorem c177_option : forall f_ln f_cdf e k vol tenors money s s' fwds M disc div q o F t, with_constant_volatility e k vol tenors money = Ret (ROk s) ->
  tame s fwds M -> forwards e (sticky_spot e s) s fwds -> vol_build e s = Ret (ROk s') -> value vol <> 0 -> finite vol ->
  fair_forward (ve_eval e) (ve_coll e) (ve_borrow e) (ve_price e) div (vo_maturity o) = Ret (ROk F) -> finite (gdiv (vo_strike o) F) ->
  get_time_difference (ve_eval e) (vo_maturity o) = Ret t -> finite t ->
  option_npv f_ln f_cdf (ve_eval e) (ve_coll e) (ve_borrow e) disc (ve_price e) div (surface_vol s') q o =
  option_npv f_ln f_cdf (ve_eval e) (ve_coll e) (ve_borrow e) disc (ve_price e) div (constant_vol vol) q o.
Proof.
  intros f_ln f_cdf e k vol tenors money s s' fwds M disc div q o F t E T FW B N FV EF FX ET FT. destruct (c177_grid e k vol tenors money s E) as (_ & _ & _ & _ & _ & _ & G).
  destruct (surface_const e s s' fwds M vol t (gdiv (vo_strike o) F) T FW B) as (y & Ey & Fy & Vy); try assumption.
  { eapply Forall_impl; [|exact G]. cbn. intros row [_ H]. exact H. }
  pose proof (same_float y vol Fy FV Vy N) as ->. unfold option_npv. rewrite EF. cbn [rbind]. rewrite ET. cbn [obind]. unfold adjustment, surface_vol, constant_vol, surface_variance, surface_deviation. cbn [vol_value vol_var vol_dev]. rewrite Ey. reflexivity.
Qed.

(** ** A concrete surface: tenors of one and five years, moneyness one and two *)
Definition ex_env (c : curve) : vol_env := VolEnv ex_eval c c (gof_Z 100) None.
Definition ex_tenors : list (list ascii) := [str "1Y"; str "5Y"].
Definition ex_money : list f32 := [gof_Z 1; gof_Z 2].
Definition ex_surface_ok (s : surface) : bool :=
  match su_times s, su_dates s with
  | [t1; t2], [d1; d2] => is_finite t1 && is_finite t2 && gle (gof_Z 0) t1 && gle t1 (gof_Z 2) && gle (gof_Z 3) t2 && gle t2 (gof_Z 50) && time_ok d1 && time_ok d2
  | _, _ => false
  end.
Lemma two_steps : forall A (P : A -> A -> Prop) a b, P a b -> steps P [a; b].
Proof. intros A P a b H [|[|i]] x y X Y; cbn in X, Y; [congruence|discriminate Y|destruct i; discriminate Y]. Qed.
Lemma near_100 : forall c d, priced ex_eval c d -> exists F, fair_forward ex_eval c c (gof_Z 100) None d = Ret (ROk F) /\ finite F /\ Rabs (value F - 100) <= / 1000.
Proof.
  intros c d P. destruct one_fn as [F1 V1]. fold (value (gof_Z 1)) in V1.
  destruct (c162_value ex_eval c c (gof_Z 100) None d (gof_Z 1) (hundred_usual 100 ltac:(lia)) P P (c124_none _) F1) as (F & E & FF & X); [rewrite V1, Rabs_R1, p10; lra|].
  exists F. split; [exact E|]. split; [exact FF|].
  pose proof (factor_range _ _ _ P) as R. rewrite p20 in R. destruct (small_fin 100 ltac:(lia)) as [_ V100]. unfold real_of in V100. fold (value (gof_Z 100)) in V100. rewrite V1, V100 in X.
  replace (IZR 100 * factor_on ex_eval c d / factor_on ex_eval c d * 1) with 100 in X by (field; lra). rewrite (Rabs_pos_eq 100) in X by lra. rewrite p24' in X.
  assert (H0 : / 2 ^ 118 <= / 2 ^ 20) by (apply Rinv_le; [apply pow_lt; lra|apply Rle_pow; [lra|lia]]). rewrite p20 in H0. lra.
Qed.
Lemma ex_surface : forall k, exists f_exp c s fwds, good_exp f_exp /\ reached f_exp c /\ with_constant_volatility (ex_env c) k sixteenth ex_tenors ex_money = Ret (ROk s) /\
  tame s fwds 1 /\ forwards (ex_env c) (sticky_spot (ex_env c) s) s fwds /\ nth_error (su_times s) 1 <> None /\ sticky_spot (ex_env c) s = gof_Z 100 /\ priced ex_eval c ex_maturity.
Proof.
  intro k. destruct ex_curve as (c & t9 & H & RR & H9 & B).
  assert (W : match with_constant_volatility (ex_env c) k sixteenth ex_tenors ex_money with Ret (ROk s) => ex_surface_ok s | _ => false end = true) by (destruct k; vm_compute; reflexivity).
  destruct (with_constant_volatility (ex_env c) k sixteenth ex_tenors ex_money) as [[s|]| |] eqn:E; try discriminate W.
  destruct (c177_grid _ _ _ _ _ _ E) as (SP & MO & ST & DA & TI & LG & GR). unfold ex_surface_ok in W.
  destruct (su_times s) as [|t1 [|t2 [|? ?]]] eqn:ET; try discriminate W. destruct (su_dates s) as [|d1 [|d2 [|? ?]]] eqn:ED; try discriminate W. repeat (apply andb_prop in W; let X := fresh "W" in destruct W as [W X]).
  destruct (near_100 c d1 (time_priced c t9 d1 H RR H9 B W1)) as (f1 & EF1 & FF1 & VF1). destruct (near_100 c d2 (time_priced c t9 d2 H RR H9 B W0)) as (f2 & EF2 & FF2 & VF2).

  apply (proj1 (fin_le 24 128 _ _ _ _ zero_fn (conj W eq_refl))) in W5. destruct (small_fin 2 ltac:(lia)) as [F2 R2]. destruct (small_fin 3 ltac:(lia)) as [F3 R3]. destruct (small_fin 50 ltac:(lia)) as [F50 R50]. destruct (small_fin 100 ltac:(lia)) as [F100 R100]. destruct (small_fin 1 ltac:(lia)) as [F1 R1].
  change real_of with value in *.
  apply (proj1 (fin_le 24 128 _ _ _ _ (conj W eq_refl) (conj F2 eq_refl))) in W4. apply (proj1 (fin_le 24 128 _ _ _ _ (conj F3 eq_refl) (conj W6 eq_refl))) in W3. apply (proj1 (fin_le 24 128 _ _ _ _ (conj W6 eq_refl) (conj F50 eq_refl))) in W2.
  fold (value t1) (value t2) (value (gof_Z 2)) (value (gof_Z 3)) (value (gof_Z 50)) in *. rewrite R2 in W4. rewrite R3 in W3. rewrite R50 in W2.
  assert (P10 : / 2 ^ 10 <= 1) by (rewrite <- Rinv_1; apply Rinv_le; lra). assert (P20' : / 2 ^ 20 <= / 1000) by (apply Rinv_le; lra).
  apply Rabs_le_inv in VF1. apply Rabs_le_inv in VF2. destruct eighth_value as (_ & _ & FS & VS).
  exists an_exp, c, s, [f1; f2]. split; [exact an_exp_good|]. split; [exact H|]. split; [exact E|]. split; [|split].
  - split.
    + rewrite ET, LG. cbn [length ex_tenors]. lia.
    + rewrite MO. cbn [length ex_money]. split; [lia|]. eapply Forall_impl; [|exact GR]. cbn beta. intros row [L _]. exact L.
    + rewrite ET. split; [repeat first [apply Forall_nil|apply Forall_cons|split]; try assumption; lra|]. apply two_steps. lra.
    + rewrite MO. unfold ex_money. split; [repeat first [apply Forall_nil|apply Forall_cons|split]; try assumption; rewrite ?R1, ?R2; lra|]. apply two_steps. rewrite R1, R2. lra.
    + rewrite SP. cbn [ve_price ex_env]. repeat first [apply Forall_nil|apply Forall_cons|split]; try assumption; rewrite ?R100; lra.
    + split; [|lra]. eapply Forall_impl; [|exact GR]. cbn beta. intros row [_ L]. eapply Forall_impl; [|exact L]. cbn beta. intros v ->. split; [exact FS|]. rewrite VS. apply Rabs_le. lra.
  - assert (SS : sticky_spot (ex_env c) s = gof_Z 100) by (unfold sticky_spot; rewrite SP; destruct (su_sticky s); reflexivity). rewrite SS. unfold forwards. rewrite ED. repeat constructor; assumption.
  - split; [rewrite ET; discriminate|]. split; [unfold sticky_spot; rewrite SP; destruct (su_sticky s); reflexivity|]. apply (time_priced c t9); try assumption.
Qed.
Example c176_hypotheses_met : exists e s s' fwds, tame s fwds 1 /\ forwards e (sticky_spot e s) s fwds /\ vol_build e s = Ret (ROk s') /\ su_sticky s = StickyToStrike /\ (exists t f row m v, nth_error (su_times s) 1 = Some t /\ nth_error fwds 1 = Some f /\ nth_error (su_grid s) 1 = Some row /\
  nth_error (su_money s) 1 = Some m /\ nth_error row 1 = Some v) /\ Forall (Forall (fun v => 0 <= value v <= 1)) (su_grid s) /\ / 2 ^ 20 <= value (su_spot s) <= 2 ^ 30.
Proof.
  destruct (ex_surface StickyToStrike) as (f_exp & c & s & fwds & G & H & E & T & F & _ & _ & _). destruct (c176_builds _ _ _ _ T F) as (s' & B & _). destruct (c177_grid _ _ _ _ _ _ E) as (_ & MO & ST & _ & _ & _ & GR).
  exists (ex_env c), s, s', fwds. split; [exact T|]. split; [exact F|]. split; [exact B|]. split; [exact ST|]. pose proof T as [[R1 [R2 R3]] [C1 C2] _ _ LV _]. split; [|split].
  - destruct (at_lt _ (su_times s) 1%nat ltac:(lia)) as (t & Ht & _). destruct (at_lt _ fwds 1%nat ltac:(lia)) as (f & Hf & _). destruct (at_lt _ (su_grid s) 1%nat ltac:(lia)) as (row & Hr & _). destruct (at_lt _ (su_money s) 1%nat ltac:(lia)) as (m & Hm & _).
    rewrite Forall_forall in C2. pose proof (C2 row (nth_error_In _ _ Hr)) as LR. destruct (at_lt _ row 1%nat ltac:(lia)) as (v & Hv & _). exists t, f, row, m, v. auto.
  - eapply Forall_impl; [|exact GR]. cbn beta. intros row [_ L]. eapply Forall_impl; [|exact L]. cbn beta. intros v ->. destruct eighth_value as (_ & _ & FS & VS). rewrite VS. lra.
  - inversion LV as [|? ? [_ Q] _]; subst. exact Q.
Qed.
Example c177_hypotheses_met : exists e s s' fwds F t o, with_constant_volatility e StickyToStrike sixteenth ex_tenors ex_money = Ret (ROk s) /\ tame s fwds 1 /\ forwards e (sticky_spot e s) s fwds /\ vol_build e s = Ret (ROk s') /\
  value sixteenth <> 0 /\ finite sixteenth /\ fair_forward (ve_eval e) (ve_coll e) (ve_borrow e) (ve_price e) None (vo_maturity o) = Ret (ROk F) /\ finite (gdiv (vo_strike o) F) /\ get_time_difference (ve_eval e) (vo_maturity o) = Ret t /\ finite t.
Proof.
  destruct (ex_surface StickyToStrike) as (f_exp & c & s & fwds & G & H & E & T & FW & _ & _ & P). destruct (c176_builds _ _ _ _ T FW) as (s' & B & _). destruct (near_100 c ex_maturity P) as (F & EF & FF & VF).
  assert (TT : match get_time_difference ex_eval ex_maturity with Ret t => is_finite t | _ => false end = true) by (vm_compute; reflexivity). destruct (get_time_difference ex_eval ex_maturity) as [t| |] eqn:ET; try discriminate TT.
  destruct eighth_value as (_ & _ & FS & VS).
  exists (ex_env c), s, s', fwds, F, t, (vanilla_new (gof_Z 90) (gof_Z 1) ex_maturity Ccy_KRW Ccy_KRW Call). split; [exact E|]. split; [exact T|]. split; [exact FW|]. split; [exact B|]. split; [rewrite VS; lra|]. split; [exact FS|]. cbn [ve_eval ve_coll ve_borrow ve_price ex_env vo_maturity vo_strike vanilla_new].
  split; [exact EF|]. split; [|split; [exact ET|exact TT]]. apply Rabs_le_inv in VF. destruct (small_fin 90 ltac:(lia)) as [F90 R90]. unfold real_of in R90.
  destruct (div_err (gof_Z 90) F (IZR 90) (value F) (conj F90 R90) (conj FF eq_refl)) as (h & d2 & t2 & Fh & _); [lra| |exact (proj1 Fh)].
  apply two100_127. assert (Rabs (90 / value F) <= 1); [|pose proof two100_pos; lra]. assert (I : 0 < / value F <= / 90) by (split; [apply Rinv_0_lt_compat; lra|apply Rinv_le; lra]). unfold Rdiv. rewrite Rabs_pos_eq by (apply Rmult_le_pos; lra).
  apply Rle_trans with (90 * / 90); [apply Rmult_le_compat_l; lra|lra].
Qed.
Print Assumptions c176_builds.
Print Assumptions c176_accurate.
Print Assumptions c176_knots.
Print Assumptions c176_moneyness.
Print Assumptions c176_between.
Print Assumptions c176_answers.
Print Assumptions c176_no_tenor_refuted.
Print Assumptions c177_grid.
Print Assumptions c177_flat.
Print Assumptions c177_option.
