(** QCurveProps.v -- curve data and zero curves: the properties (C131-C137). *)
From Coq Require Import ZArith List Bool Reals Lia Lra Ascii String.
From Flocq Require Import Core IEEE754.BinarySingleNaN.
From Verif Require Import Base CivilSpec FloatModel FloatFacts KrxModel QDateModel QDateProofs QCalModel QCalSpec QCalRules QPeriodModel QPeriodSpec
  QYearModel QYearProofs QYearSpec QYearProps QFindModel QFindSpec QFindProofs QFindProps QInterpModel QInterpSpec QInterpProofs QFloatErr QLinProofs QLinProps QDivModel QDivProps
  QCurveModel QCurveSpec QCurveDates QCurveProofs QCurveFacts QCurveReach QCurveDisc QCurveExp.
Import ListNotations.
Open Scope R_scope.

(** ** C131: data for a curve *)
Theorem c131_data : forall value dates times market,
  (dates = None -> times = None -> vector_new value dates times market = Ret RErr) /\
  (forall ds, dates = Some ds -> List.length value <> List.length ds -> vector_new value dates times market = Ret RErr) /\
  (forall ds, dates = Some ds -> market = None -> vector_new value dates times market = Ret RErr) /\
  (forall ts, dates = None -> times = Some ts -> List.length value <> List.length ts -> vector_new value dates times market = Ret RErr) /\
  (forall ts, dates = None -> times = Some ts -> List.length value = List.length ts ->
     vector_new value dates times market = Ret (ROk (VectorData value None ts market))).
Proof.
  intros value dates times market. split; [|split; [|split; [|split]]].
  - intros -> ->. reflexivity.
  - intros ds -> L. cbn [vector_new]. rewrite (proj2 (Nat.eqb_neq _ _) L). destruct times; reflexivity.
  - intros ds -> ->. cbn [vector_new]. destruct (List.length value =? List.length ds)%nat, times; reflexivity.
  - intros ts -> -> L. cbn [vector_new]. rewrite (proj2 (Nat.eqb_neq _ _) L). reflexivity.
  - intros ts -> -> L. cbn [vector_new]. rewrite (proj2 (Nat.eqb_eq _ _) L). reflexivity.
Qed.
(** the times of dates are counted from the market date; times given beside
    dates are ignored *)
Theorem c131_dates : forall value ds times m ts, List.length value = List.length ds -> Forall2 (fun d t => get_time_difference m d = Ret t) ds ts ->
  vector_new value (Some ds) times (Some m) = Ret (ROk (VectorData value (Some ds) ts (Some m))).
Proof.
  intros value ds times m ts L H. cbn [vector_new]. rewrite (proj2 (Nat.eqb_eq _ _) L). cbn [negb]. rewrite (map_outcome_ext _ _ _ _ _ H). destruct times; reflexivity.
Qed.

(** ** C132: later days have later times *)
Theorem c132_later : forall s e1 e2 y0 y1 y2, odt_ok s -> odt_ok e1 -> odt_ok e2 -> in_the_year y0 (od_day s) -> in_the_year y1 (od_day e1) -> in_the_year y2 (od_day e2) ->
  od_off s = od_off e1 -> od_off s = od_off e2 -> (y0 <= y1)%Z -> (y2 <= y0 + 1000)%Z -> (instant e1 + day_ns <= instant e2)%Z ->
  exists t1 t2, get_time_difference s e1 = Ret t1 /\ get_time_difference s e2 = Ret t2 /\ finite t1 /\ finite t2 /\ value t1 + / 2048 <= value t2.
Proof.
  intros s e1 e2 y0 y1 y2 A B C D E F G H I J K. destruct (apart s e1 e2 y0 y1 y2 A B C D E F G H I J K) as (t1 & t2 & v1 & v2 & X1 & X2 & [F1 <-] & [F2 <-] & L).
  exists t1, t2. auto 6.
Qed.
Theorem c132_zero : forall s, exists t, get_time_difference s s = Ret t /\ finite t /\ value t = 0.
Proof.
  intro s. unfold get_time_difference, over_years. replace (date_year (od_day s) - date_year (od_day s) + 1)%Z with 1%Z by lia. change (Z.to_nat 1) with 1%nat. cbn [year_loop].
  unfold time_part. rewrite !Z.eqb_refl. cbn [obind]. replace (instant s - instant s)%Z with 0%Z by lia.
  destruct (leap_or (date_year (od_day s))) as [-> | ->]; (eexists; split; [reflexivity|]; split; vm_compute; reflexivity).
Qed.

(** ** The curves a user can hold: built from mild data, then bumped any number
    of times by times or by dates, whatever the evaluation date then is, as
    long as the cached rates stay within 50% *)
Section Reached.
Context (f_exp : f32 -> f32).
Inductive reached : curve -> Prop :=
| re_new : forall y m d ns off data c, civil_ok y m d ns -> (y + 100 <= 9999)%Z -> (-93599 <= off <= 93599)%Z -> good_rates (vd_times data) (vd_value data) ->
    curve_new f_exp (civil y m d ns off) data = Ret (ROk c) -> reached c
| re_times : forall c t1 t2 b r c', reached c -> bump_times f_exp c t1 t2 b = Ret (r, c') -> Forall small_rate (cv_rates c') -> reached c'
| re_dates : forall eval c d1 d2 b r c', reached c -> bump_dates f_exp eval c d1 d2 b = Ret (r, c') -> Forall small_rate (cv_rates c') -> reached c'.
Lemma reached_sound : forall c, reached c -> sound f_exp c.
Proof using.
  intros c H. induction H as [y m d ns off data c C R O G E|c t1 t2 b r c' H IH E S|eval c d1 d2 b r c' H IH E S].
  - destruct (new_sound f_exp y m d ns off data C R O G) as (c1 & E1 & S1 & _). rewrite E1 in E. injection E as <-. exact S1.
  - exact (bump_sound f_exp c t1 t2 b r c' IH E S).
  - unfold bump_dates in E.
    destruct (match d1 with Some d => get_time_difference eval d | None => Ret (gof_Z (-99999999)) end) as [t1| |]; cbn [obind] in E; try discriminate E.
    destruct (match d2 with Some d => get_time_difference eval d | None => Ret (gof_Z 99999999) end) as [t2| |]; cbn [obind] in E; try discriminate E.
    exact (bump_sound f_exp c (Some t1) (Some t2) b r c' IH E S).
Qed.
End Reached.
Hint Resolve reached_sound : core.

(** ** C133: construction *)
Theorem c133_errors : forall f_exp eval data,
  (List.length (vd_times data) <> List.length (vd_value data) -> curve_new f_exp eval data = Ret RErr) /\ (vd_value data = [] -> curve_new f_exp eval data = Ret RErr) /\
  (forall i a b, List.length (vd_times data) = List.length (vd_value data) -> (2 <= List.length (vd_value data))%nat ->
     nth_error (vd_times data) i = Some a -> nth_error (vd_times data) (i + 1) = Some b -> fcmp a b = Some Gt -> curve_new f_exp eval data = Ret RErr).
Proof.
  intros f_exp eval data. unfold curve_new. split; [|split].
  - intro H. rewrite (proj2 (Nat.eqb_neq _ _) H). reflexivity.
  - intros ->. destruct (negb _); reflexivity.
  - intros i a b L L2 Ha Hb G. rewrite (proj2 (Nat.eqb_eq _ _) L). cbn [negb].
    destruct (c113_new (vd_times data) (vd_value data) XFlat true) as (_ & Q & _). rewrite Q; [|exact L|intro Z; rewrite Z in Ha; destruct i; discriminate Ha|exists i, a, b; split; [exact Ha|]; split; [exact Hb|exact G]].
    destruct (vd_value data) as [|z [|z2 vs]]; cbn [List.length] in L2; try lia. reflexivity.
Qed.
(** one rate is a flat curve; several are a line between the points, flat
    outside.  The curve caches the times of 29 dates, today, tomorrow, ..., 100
    years on (the evaluation date's clock time), in strictly rising order from
    exactly 0, and the rate at each *)
Theorem c133_new : forall f_exp y m d ns off data, civil_ok y m d ns -> (y + 100 <= 9999)%Z -> (-93599 <= off <= 93599)%Z -> good_rates (vd_times data) (vd_value data) ->
  exists c, curve_new f_exp (civil y m d ns off) data = Ret (ROk c) /\
    Forall2 (fun w t => exists n, walked w (day_number y m d) n /\ get_time_difference (civil y m d ns off) (Odt n ns off) = Ret t) grid (cv_times c) /\
    (exists t0, nth_error (cv_times c) 0 = Some t0 /\ value t0 = 0) /\
    (forall i a b, nth_error (cv_times c) i = Some a -> nth_error (cv_times c) (i + 1) = Some b -> value a + / 2048 <= value b) /\
    Forall2 (fun t r => finite r /\ exists rho, rate_at (vd_times data) (vd_value data) (value t) rho /\ Rabs (value r - rho) <= 7 / 2 ^ 24) (cv_times c) (cv_rates c).
Proof.
  intros f_exp y m d ns off data C R O G. destruct (new_sound f_exp y m d ns off data C R O G) as (c & E & S & M & Q). exists c. split; [exact E|]. split; [exact M|].
  split; [exact (so_first _ c S)|]. split; [intros i a b; exact (proj2 (so_rises _ c S) i a b)|].
  clear - Q. induction Q as [|t r ts rs (F & rho & A & _ & B) _ IH]; constructor; [|exact IH]. split; [exact F|]. exists rho. auto.
Qed.

(** ** C134: the discount factor of a fresh curve at the dates it caches *)
Lemma knot : forall f_exp c i t x, good_exp f_exp -> sound f_exp c -> (i < 28)%nat -> nth_error (cv_times c) i = Some t -> finite x -> value x = value t ->
  exists r y, nth_error (cv_rates c) i = Some r /\ discount c x = Ret (ROk y) /\ finite y /\ value y = value (f_exp (gneg (gmul r t))) /\
    Rabs (value y - exp (- (value r * value t))) <= exp (- (value r * value t)) * ((1 + value t) / 2 ^ 21) /\ (value t = 0 -> value y = 1).
Proof.
  intros f_exp c i t x GE S L Ht Fx Vx. destruct (ends f_exp c S) as (t0 & t9 & H0 & V0 & F0 & H9 & V9 & F9 & HL). destruct (times_range f_exp c S i t Ht) as [Ft Bt].
  pose proof (rises_lt _ (so_rises _ c S) i 28 t t9 ltac:(lia) Ht H9) as B9.
  destruct (inside f_exp GE c x t9 S Fx H9 ltac:(lra)) as (j & a & b & u & w & ra & rb & Ha & Hb & Hu & Hw & Hra & _ & Eu & _ & X & E & Fs).
  assert (j = i).
  { destruct (Nat.lt_trichotomy j i) as [Q|[Q|Q]]; [|exact Q|].
    - destruct (Nat.eq_dec (j + 1) i) as [<-|N]; [assert (t = b) by congruence; subst; lra|].
      pose proof (rises_lt _ (so_rises _ c S) (j + 1) i b t ltac:(lia) Hb Ht). lra.
    - pose proof (rises_lt _ (so_rises _ c S) i j t a Q Ht Ha). lra. }
  subst j. assert (a = t) by congruence. subst a.
  destruct (factor_at f_exp GE c S i u Hu) as (r' & t' & Hr' & Ht' & _ & Fu & _ & A & Z). assert (r' = ra) by congruence. assert (t' = t) by congruence. subst r' t'.
  destruct (same_sub x t Fx Ft Vx) as [G1 G2]. destruct (mul_zero _ _ Fs G1 (or_intror G2)) as [G3 G4]. destruct (plus_zero u _ Fu G3 G4) as [G5 G6].
  exists ra. eexists. split; [exact Hra|]. split; [exact E|]. split; [exact G5|]. rewrite G6. rewrite <- Eu. auto.
Qed.
(** today: exactly 1 *)
Theorem c134_one : forall f_exp c t, good_exp f_exp -> reached f_exp c -> finite t -> value t = 0 -> exists y, discount c t = Ret (ROk y) /\ finite y /\ value y = 1.
Proof.
  intros f_exp c t GE H Ft Z. pose proof (reached_sound _ c H) as S. destruct (so_first _ c S) as (t0 & H0 & V0).
  destruct (knot f_exp c 0 t0 t GE S ltac:(lia) H0 Ft ltac:(lra)) as (r & y & _ & E & Fy & _ & _ & Q). exists y. auto.
Qed.
Theorem c134_today : forall f_exp eval c, good_exp f_exp -> reached f_exp c -> exists y, discount_at eval c eval = Ret (ROk y) /\ finite y /\ value y = 1.
Proof.
  intros f_exp eval c GE H. destruct (c132_zero eval) as (t & E & Ft & Z). unfold discount_at. rewrite E. cbn [obind].
  assert (NL : o_lt fcmp t (gof_Z 0) = false).
  { unfold o_lt. pose proof (fle_finite (gof_Z 0) t ltac:(vm_compute; reflexivity) Ft) as Q. destruct (fcmp t (gof_Z 0)) as [[]|] eqn:K; try reflexivity. exfalso.
    assert (LT : lt fcmp t (gof_Z 0)) by exact K. apply flt_finite in LT; [|exact Ft|vm_compute; reflexivity].
    assert (V0 : B2R (gof_Z 0 : f32) = 0) by (vm_compute; reflexivity). rewrite V0 in LT. unfold value in Z. lra. }
  rewrite NL. exact (c134_one f_exp c t GE H Ft Z).
Qed.
(** the dates the fresh curve caches, all but the last: exp(- rate * time) *)
Theorem c134_fresh : forall f_exp y m d ns off data i w, good_exp f_exp -> civil_ok y m d ns -> (y + 100 <= 9999)%Z -> (-93599 <= off <= 93599)%Z -> good_rates (vd_times data) (vd_value data) ->
  (i < 28)%nat -> nth_error grid i = Some w ->
  exists c n t rho D, curve_new f_exp (civil y m d ns off) data = Ret (ROk c) /\ walked w (day_number y m d) n /\
    get_time_difference (civil y m d ns off) (Odt n ns off) = Ret t /\ rate_at (vd_times data) (vd_value data) (value t) rho /\
    discount_at (civil y m d ns off) c (Odt n ns off) = Ret (ROk D) /\ finite D /\
    Rabs (value D - exp (- (rho * value t))) <= exp (- (rho * value t)) * ((1 + value t) / 2 ^ 20).
Proof.
  intros f_exp y m d ns off data i w GE C R O G L Hw. destruct (new_sound f_exp y m d ns off data C R O G) as (c & E & S & M & Q).
  destruct (nth_error (cv_times c) i) as [t|] eqn:Ht; [|apply nth_error_None in Ht; rewrite (so_29 _ c S) in Ht; lia].
  destruct (times_range f_exp c S i t Ht) as [Ft Bt].
  destruct (knot f_exp c i t t GE S L Ht Ft eq_refl) as (r & D & Hr & ED & FD & _ & A & _).
  destruct (forall2_nth _ _ _ _ _ M i w t Hw Ht) as (n & W & ET). destruct (forall2_nth _ _ _ _ _ Q i t r Ht Hr) as (Fr & rho & RA & Brho & Er).
  exists c, n, t, rho, D. split; [exact E|]. split; [exact W|]. split; [exact ET|]. split; [exact RA|]. split; [|split; [exact FD|]].
  - unfold discount_at. rewrite ET. cbn [obind]. replace (o_lt fcmp t (gof_Z 0)) with false; [exact ED|]. symmetry.
    unfold o_lt. destruct (fcmp t (gof_Z 0)) as [[]|] eqn:K; try reflexivity. exfalso.
    assert (LT : lt fcmp t (gof_Z 0)) by exact K. apply flt_finite in LT; [|exact Ft|vm_compute; reflexivity].
    assert (V0 : B2R (gof_Z 0 : f32) = 0) by (vm_compute; reflexivity). rewrite V0 in LT. unfold value in Bt. lra.
  - assert (P24 : 2 ^ 24 = 16777216) by (rewrite pow_IZR; reflexivity). assert (P21 : 2 ^ 21 = 2097152) by (rewrite pow_IZR; reflexivity). assert (P20 : 2 ^ 20 = 1048576) by (rewrite pow_IZR; reflexivity).
    rewrite P24 in Er. rewrite P21 in A. rewrite P20.
    assert (EE : Rabs (- (value r * value t) - - (rho * value t)) <= 7 / 16777216 * value t).
    { replace (- (value r * value t) - - (rho * value t)) with (- ((value r - rho) * value t)) by ring. rewrite Rabs_Ropp, Rabs_mult, (Rabs_pos_eq (value t)) by lra. apply Rmult_le_compat_r; lra. }
    pose proof (exp_close (- (value r * value t)) (- (rho * value t)) (7 / 16777216 * value t) ltac:(lra) EE) as X.
    pose proof (exp_pos (- (rho * value t))) as P. set (U := exp (- (rho * value t))) in *. set (V := exp (- (value r * value t))) in *. clearbody U V.
    assert (XV : V <= U * 1.001).
    { apply Rabs_le_inv in X. assert (1.002 * (7 / 16777216 * value t) * U <= 0.001 * U) by (apply Rmult_le_compat_r; lra). lra. }
    replace (value D - U) with ((value D - V) + (V - U)) by ring. apply Rle_trans with (1 := Rabs_triang _ _).
    assert (A' : Rabs (value D - V) <= U * 1.001 * ((1 + value t) / 2097152)).
    { apply Rle_trans with (1 := A). apply Rmult_le_compat_r; [|exact XV]. apply Rmult_le_pos; lra. }
    assert (K : 1.001 * ((1 + value t) / 2097152) + 1.002 * (7 / 16777216 * value t) <= (1 + value t) / 1048576) by lra.
    apply Rle_trans with (U * (1.001 * ((1 + value t) / 2097152) + 1.002 * (7 / 16777216 * value t))); [lra|]. apply Rmult_le_compat_l; lra.
Qed.
(** and of any reachable curve, in terms of the rates it holds *)
Theorem c134_cached : forall f_exp c i t, good_exp f_exp -> reached f_exp c -> (i < 28)%nat -> nth_error (cv_times c) i = Some t ->
  exists r D, nth_error (cv_rates c) i = Some r /\ discount c t = Ret (ROk D) /\ finite D /\
    Rabs (value D - exp (- (value r * value t))) <= exp (- (value r * value t)) * ((1 + value t) / 2 ^ 21).
Proof.
  intros f_exp c i t GE H L Ht. pose proof (reached_sound _ c H) as S. destruct (times_range f_exp c S i t Ht) as [Ft _].
  destruct (knot f_exp c i t t GE S L Ht Ft eq_refl) as (r & D & Hr & ED & FD & _ & A & _). exists r, D. auto.
Qed.

(** ** C135: between the cached times: the chord of the discount factors *)
Theorem c135_between : forall f_exp c t t9, good_exp f_exp -> reached f_exp c -> finite t -> nth_error (cv_times c) 28 = Some t9 -> 0 <= value t < value t9 ->
  exists i a b ra rb D, nth_error (cv_times c) i = Some a /\ nth_error (cv_times c) (i + 1) = Some b /\ nth_error (cv_rates c) i = Some ra /\ nth_error (cv_rates c) (i + 1) = Some rb /\
    value a <= value t < value b /\ discount c t = Ret (ROk D) /\ finite D /\
    let U := exp (- (value ra * value a)) in let W := exp (- (value rb * value b)) in
    Rabs (value D - (U + (W - U) * ((value t - value a) / (value b - value a)))) <= (U + W) * ((21 + 8 * value b) / 2 ^ 24).
Proof.
  intros f_exp c t t9 GE H Ft H9 X. pose proof (reached_sound _ c H) as S.
  destruct (inside f_exp GE c t t9 S Ft H9 X) as (i & a & b & u & w & ra & rb & Ha & Hb & Hu & Hw & Hra & Hrb & Eu & Ew & B & E & _).
  destruct (factor_at f_exp GE c S i u Hu) as (r' & t' & Hr' & Ht' & _ & Fu & Bu & Au & _). assert (r' = ra) by congruence. assert (t' = a) by congruence. subst r' t'.
  destruct (factor_at f_exp GE c S (i + 1) w Hw) as (r' & t' & Hr'' & Ht'' & _ & Fw & Bw & Aw & _). assert (r' = rb) by congruence. assert (t' = b) by congruence. subst r' t'.
  destruct (times_range f_exp c S _ _ Ha) as [Fa Ba]. destruct (times_range f_exp c S _ _ Hb) as [Fb Bb].
  pose proof (proj2 (so_rises _ c S) i a b Ha Hb) as AB.
  set (U := exp (- (value ra * value a))) in *. set (W := exp (- (value rb * value b))) in *.
  assert (PU : 0 < U) by apply exp_pos. assert (PW : 0 < W) by apply exp_pos.
  assert (P24 : 2 ^ 24 = 16777216) by (rewrite pow_IZR; reflexivity). assert (P21 : 2 ^ 21 = 2097152) by (rewrite pow_IZR; reflexivity). rewrite P21 in *.
  assert (SR : Forall small_rate (cv_rates c)) by apply (so_rates _ c S). rewrite List.Forall_forall in SR.
  destruct (SR ra (nth_error_In _ _ Hra)) as [Fra Bra]. destruct (SR rb (nth_error_In _ _ Hrb)) as [Frb Brb].
  assert (LB : / 2 ^ 81 <= U + W /\ U + W <= 2 ^ 82).
  { assert (K : forall r x, Rabs r <= 0.5 -> 0 <= x <= 101 -> exp (- (r * x)) <= 2 ^ 81 /\ / 2 ^ 81 <= exp (- (r * x))).
    { intros r x Hr Hx. assert (Q : Rabs (r * x) <= 51) by (rewrite Rabs_mult, (Rabs_pos_eq x) by lra; apply Rle_trans with (0.5 * 101); [apply Rmult_le_compat; try lra; apply Rabs_pos|lra]).
      apply Rabs_le_inv in Q. split.
      - rewrite (pow_IZR 2 81). apply exp_bound. lra.
      - rewrite exp_Ropp. apply Rinv_le; [apply exp_pos|]. rewrite (pow_IZR 2 81). apply exp_bound. lra. }
    destruct (K _ _ Bra Ba) as [K1 K2]. destruct (K _ _ Brb Bb) as [K3 K4]. fold U in K1, K2. fold W in K3, K4. split; [lra|]. change (2 ^ 82) with (2 * 2 ^ 81). lra. }
  destruct LB as [LB UB].
  assert (Eu' : Rabs (value u - U) <= (U + W) * ((1 + value b) / 2097152)).
  { apply Rle_trans with (1 := Au). apply Rmult_le_compat; [lra|apply Rmult_le_pos; lra|lra|]. apply Rmult_le_compat_r; lra. }
  assert (Ew' : Rabs (value w - W) <= (U + W) * ((1 + value b) / 2097152)).
  { apply Rle_trans with (1 := Aw). apply Rmult_le_compat_r; [apply Rmult_le_pos; lra|lra]. }
  assert (SM : (U + W) * ((1 + value b) / 2097152) <= (U + W) * 0.0001) by (apply Rmult_le_compat_l; lra).
  set (M := (U + W) * 1.0001).
  assert (P88 : 2 ^ 82 * 64 = 2 ^ 88) by (rewrite !pow_IZR, <- mult_IZR; reflexivity).
  assert (Mu : value u <= M /\ value w <= M) by (apply Rabs_le_inv in Eu'; apply Rabs_le_inv in Ew'; unfold M; lra).
  destruct (near_chord f_exp GE c i a b u w t M S Ha Hb Hu Hw Ft B (proj1 Mu) (proj2 Mu) ltac:(unfold M; lra)) as [FD A].
  exists i, a, b, ra, rb. eexists. do 5 (split; [assumption|]). split; [exact E|]. split; [exact FD|]. cbv zeta. fold U W.
  set (D := gadd u _) in *. clearbody D. rewrite P24 in *. set (z := (value t - value a) / (value b - value a)) in *.
  assert (Z : 0 <= z <= 1).
  { unfold z. split; [apply Rmult_le_pos; [lra|]; left; apply Rinv_0_lt_compat; lra|]. apply Rmult_le_reg_r with (value b - value a); [lra|]. unfold Rdiv. rewrite Rmult_assoc, Rinv_l by lra. lra. }
  assert (CH : Rabs ((value u + (value w - value u) * z) - (U + (W - U) * z)) <= (U + W) * ((1 + value b) / 2097152)).
  { replace ((value u + (value w - value u) * z) - (U + (W - U) * z)) with ((value u - U) * (1 - z) + (value w - W) * z) by ring.
    apply Rle_trans with (1 := Rabs_triang _ _). rewrite !Rabs_mult, (Rabs_pos_eq z), (Rabs_pos_eq (1 - z)) by lra.
    set (e := (U + W) * ((1 + value b) / 2097152)) in *.
    assert (Rabs (value u - U) * (1 - z) <= e * (1 - z)) by (apply Rmult_le_compat_r; lra). assert (Rabs (value w - W) * z <= e * z) by (apply Rmult_le_compat_r; lra). lra. }
  assert (T : / 2 ^ 142 <= (U + W) * / 2 ^ 61).
  { apply Rle_trans with (/ 2 ^ 81 * / 2 ^ 61); [right; rewrite <- Rinv_mult; f_equal; rewrite <- pow_add; reflexivity|]. apply Rmult_le_compat_r; [left; apply Rinv_0_lt_compat; apply pow_lt; lra|exact LB]. }
  assert (T' : / 2 ^ 61 <= / 16777216000).
  { apply Rinv_le; [lra|]. rewrite pow_IZR. apply IZR_le. apply Z.leb_le. reflexivity. }
  assert (T2 : (U + W) * / 2 ^ 61 <= (U + W) * / 16777216000) by (apply Rmult_le_compat_l; lra).
  replace (value D - (U + (W - U) * z)) with ((value D - (value u + (value w - value u) * z)) + ((value u + (value w - value u) * z) - (U + (W - U) * z))) by ring.
  apply Rle_trans with (1 := Rabs_triang _ _). unfold M in A.
  assert (FIN : (U + W) * (12 / 16777216 * 1.0001 + / 16777216000 + (1 + value b) / 2097152) <= (U + W) * ((21 + 8 * value b) / 16777216)) by (apply Rmult_le_compat_l; lra).
  assert (T3 : / 2 ^ 142 <= (U + W) * / 16777216000) by (apply Rle_trans with (1 := T); exact T2). clear T T2 T'.
  apply Rle_trans with (12 / 16777216 * ((U + W) * 1.0001) + / 2 ^ 142 + (U + W) * ((1 + value b) / 2097152)); [apply Rplus_le_compat; assumption|].
  generalize dependent (/ 2 ^ 142). intros e142 A T3. lra.
Qed.
(** with rates between 0 and 10%: positive, and at most 1 up to rounding *)
Theorem c135_positive : forall f_exp c t t9, good_exp f_exp -> reached f_exp c -> Forall (fun r => 0 <= value r <= 0.1) (cv_rates c) ->
  finite t -> nth_error (cv_times c) 28 = Some t9 -> 0 <= value t < value t9 ->
  exists D, discount c t = Ret (ROk D) /\ finite D /\ / 2 ^ 18 <= value D <= 1.001.
Proof.
  intros f_exp c t t9 GE H RR Ft H9 X. pose proof (reached_sound _ c H) as S.
  destruct (inside f_exp GE c t t9 S Ft H9 X) as (i & a & b & u & w & ra & rb & Ha & Hb & Hu & Hw & Hra & Hrb & Eu & Ew & B & E & _).
  destruct (factor_at f_exp GE c S i u Hu) as (r' & t' & Hr' & Ht' & _ & Fu & Bu & Au & _). assert (r' = ra) by congruence. assert (t' = a) by congruence. subst r' t'.
  destruct (factor_at f_exp GE c S (i + 1) w Hw) as (r' & t' & Hr'' & Ht'' & _ & Fw & Bw & Aw & _). assert (r' = rb) by congruence. assert (t' = b) by congruence. subst r' t'.
  destruct (times_range f_exp c S _ _ Ha) as [Fa Ba]. destruct (times_range f_exp c S _ _ Hb) as [Fb Bb].
  pose proof (proj2 (so_rises _ c S) i a b Ha Hb) as AB. rewrite List.Forall_forall in RR.
  pose proof (RR ra (nth_error_In _ _ Hra)) as Rra. pose proof (RR rb (nth_error_In _ _ Hrb)) as Rrb.
  assert (P24 : 2 ^ 24 = 16777216) by (rewrite pow_IZR; reflexivity). assert (P21 : 2 ^ 21 = 2097152) by (rewrite pow_IZR; reflexivity). assert (P18 : 2 ^ 18 = 262144) by (rewrite pow_IZR; reflexivity).
  assert (K : forall r x, 0 <= r <= 0.1 -> 0 <= x <= 101 -> / 177147 <= exp (- (r * x)) <= 1).
  { intros r x Hr Hx. assert (Q : 0 <= r * x <= 10.1) by (split; [apply Rmult_le_pos; lra|apply Rle_trans with (0.1 * 101); [apply Rmult_le_compat; lra|lra]]). split.
    - rewrite exp_Ropp. apply Rinv_le; [apply exp_pos|]. apply Rle_trans with (exp 11).
      + left. apply exp_increasing. lra.
      + assert (EE : exp 11 = exp 1 ^ 11) by (rewrite <- (Rpower_pow 11 (exp 1)) by apply exp_pos; unfold Rpower; rewrite ln_exp; f_equal; cbn; lra).
        rewrite EE. apply Rle_trans with (3 ^ 11); [apply pow_incr; split; [left; apply exp_pos|exact exp_le_3]|]. right. rewrite pow_IZR. reflexivity.
    - rewrite <- exp_0. destruct (proj1 Q) as [Q0|Q0]; [left; apply exp_increasing; lra|right; f_equal; lra]. }
  pose proof (K _ _ Rra Ba) as KU. pose proof (K _ _ Rrb Bb) as KW. rewrite P21 in *.
  set (U := exp (- (value ra * value a))) in *. set (W := exp (- (value rb * value b))) in *. clearbody U W.
  assert (SU : U * ((1 + value a) / 2097152) <= U * 0.0001) by (apply Rmult_le_compat_l; lra).
  assert (SW : W * ((1 + value b) / 2097152) <= W * 0.0001) by (apply Rmult_le_compat_l; lra).
  apply Rabs_le_inv in Au. apply Rabs_le_inv in Aw.
  destruct (near_chord f_exp GE c i a b u w t 1.0001 S Ha Hb Hu Hw Ft B ltac:(lra) ltac:(lra)) as [FD A].
  { apply Rle_trans with (2 ^ 1); [lra|apply Rle_pow; [lra|lia]]. }
  eexists. split; [exact E|]. split; [exact FD|]. set (D := gadd u _) in *. clearbody D. rewrite P24 in A. set (z := (value t - value a) / (value b - value a)) in *.
  assert (Z : 0 <= z <= 1).
  { unfold z. split; [apply Rmult_le_pos; [lra|]; left; apply Rinv_0_lt_compat; lra|]. apply Rmult_le_reg_r with (value b - value a); [lra|]. unfold Rdiv. rewrite Rmult_assoc, Rinv_l by lra. lra. }
  assert (L1 : / 177147 * 0.9999 <= value u + (value w - value u) * z <= 1.0001).
  { replace (value u + (value w - value u) * z) with (value u * (1 - z) + value w * z) by ring.
    assert (/ 177147 * 0.9999 * (1 - z) <= value u * (1 - z)) by (apply Rmult_le_compat_r; lra). assert (/ 177147 * 0.9999 * z <= value w * z) by (apply Rmult_le_compat_r; lra).
    assert (value u * (1 - z) <= 1.0001 * (1 - z)) by (apply Rmult_le_compat_r; lra). assert (value w * z <= 1.0001 * z) by (apply Rmult_le_compat_r; lra). lra. }
  assert (T : / 2 ^ 142 <= / 1048576000).
  { apply Rinv_le; [lra|]. rewrite pow_IZR. apply IZR_le. apply Z.leb_le. reflexivity. }
  rewrite P18. apply Rabs_le_inv in A. lra.
Qed.

(** ** C136: outside *)
Theorem c136_outside : forall f_exp c t t9, reached f_exp c -> nth_error (cv_times c) 28 = Some t9 -> finite t -> (value t < 0 \/ value t9 <= value t) -> discount c t = Ret RErr.
Proof.
  intros f_exp c t t9 H H9 Ft X. pose proof (reached_sound _ c H) as S. destruct (ends f_exp c S) as (t0 & t9' & H0 & V0 & F0 & H9' & V9 & F9 & HL). assert (t9' = t9) by congruence. subst t9'.
  pose proof (so_rises _ c S) as RS. pose proof RS as [FT _]. pose proof (finite_numbers _ FT) as ND. pose proof (strict_sorted fcmp _ (rises_sorted _ RS)) as SV.
  destruct (linear_new_cases (cv_times c) (cv_factors c) XNone false) as [(A & E')|[(A & B & E')|[(A & B & _ & E')|(A & B & C & E')]]]; pose proof (so_disc _ c S) as ED; rewrite E' in ED; try discriminate ED.
  injection ED as ED. unfold discount. rewrite <- ED. unfold linear_interpolate. destruct X as [X|X].
  - rewrite (below_at (cv_times c) (cv_factors c) XNone false t t0 _ (finite_number t Ft) H0); [reflexivity|]. apply flt_finite; try assumption. unfold value in *. lra.
  - rewrite (above_at (cv_times c) (cv_factors c) XNone false ND SV t t0 t9 _ (finite_number t Ft) H0 HL); [reflexivity|]. apply fle_finite; assumption.
Qed.
(** REFUTED: the hundred years the curve is built for are themselves not
    covered: the factor is computed, cached and never given out *)
Theorem c136_last_refuted : forall f_exp y m d ns off data, civil_ok y m d ns -> (y + 100 <= 9999)%Z -> (-93599 <= off <= 93599)%Z -> good_rates (vd_times data) (vd_value data) ->
  exists c n, curve_new f_exp (civil y m d ns off) data = Ret (ROk c) /\ months_after y m d 1200 n /\ discount_at (civil y m d ns off) c (Odt n ns off) = Ret RErr.
Proof.
  intros f_exp y m d ns off data C R O G. destruct (new_sound f_exp y m d ns off data C R O G) as (c & E & S & M & Q).
  destruct (so_last _ c S) as (t9 & H9 & V9). destruct (times_range f_exp c S 28 t9 H9) as [F9 _].
  destruct (forall2_nth _ _ _ _ _ M 28%nat [Months 1200] t9 eq_refl H9) as (n & (n1 & (y' & m' & d' & V & EN & MA) & W) & ET). cbn [walked] in W. subst n1.
  exists c, n. split; [exact E|]. split.
  - pose proof C as (_ & V0 & _). pose proof (proj1 (date_is _ y m d V0) eq_refl) as (D1 & D2 & D3). pose proof (proj1 (date_is _ y' m' d' V) EN) as (D4 & D5 & D6).
    replace y with y' by congruence. replace m with m' by congruence. replace d with d' by congruence. exact MA.
  - unfold discount_at. rewrite ET. cbn [obind]. destruct (o_lt fcmp t9 (gof_Z 0)); [reflexivity|].
    apply (c136_outside f_exp c t9 t9 (re_new f_exp y m d ns off data c C R O G E) H9 F9). right. lra.
Qed.

(** ** C137: at a date: the factor for the time from the evaluation date *)
Lemma not_negative : forall t, finite t -> 0 <= value t -> o_lt fcmp t (gof_Z 0) = false.
Proof.
  intros t Ft B. unfold o_lt. destruct (fcmp t (gof_Z 0)) as [[]|] eqn:K; try reflexivity. exfalso.
  assert (LT : lt fcmp t (gof_Z 0)) by exact K. apply flt_finite in LT; [|exact Ft|vm_compute; reflexivity].
  assert (V0 : B2R (gof_Z 0 : f32) = 0) by (vm_compute; reflexivity). rewrite V0 in LT. unfold value in B. lra.
Qed.
Theorem c137_date : forall eval c d t, get_time_difference eval d = Ret t -> finite t -> 0 <= value t -> discount_at eval c d = discount c t.
Proof. intros eval c d t E F B. unfold discount_at. rewrite E. cbn [obind]. rewrite not_negative by assumption. reflexivity. Qed.
(** an earlier day of the same year is an error *)
Theorem c137_past : forall eval c d y, odt_ok eval -> odt_ok d -> in_the_year y (od_day eval) -> in_the_year y (od_day d) -> od_off eval = od_off d -> (instant d + day_ns <= instant eval)%Z ->
  discount_at eval c d = Ret RErr.
Proof.
  intros eval c d y HE HD YE YD O L. destruct (c132_later eval d eval y y y HE HD HE YE YD YE O eq_refl ltac:(lia) ltac:(lia) L) as (t1 & t2 & E1 & E2 & F1 & F2 & G).
  destruct (c132_zero eval) as (z & EZ & FZ & VZ). assert (t2 = z) by congruence. subst z. unfold discount_at. rewrite E1. cbn [obind].
  assert (LT : lt fcmp t1 (gof_Z 0)).
  { apply flt_finite; [exact F1|vm_compute; reflexivity|]. assert (V0 : B2R (gof_Z 0 : f32) = 0) by (vm_compute; reflexivity). rewrite V0. unfold value in *. lra. }
  unfold lt in LT. unfold o_lt. rewrite LT. reflexivity.
Qed.
(** REFUTED for an earlier year: a date years ago is discounted with exactly 1 *)
Theorem c137_past_year_refuted : forall f_exp eval c d y1 y2, good_exp f_exp -> reached f_exp c -> in_the_year y1 (od_day eval) -> in_the_year y2 (od_day d) -> (y2 < y1)%Z ->
  exists D, discount_at eval c d = Ret (ROk D) /\ finite D /\ value D = 1.
Proof.
  intros f_exp eval c d y1 y2 GE H Y1 Y2 L. pose proof (c95_earlier_year_refuted eval d y1 y2 Y1 Y2 L) as E.
  assert (Z : finite gzero /\ value gzero = 0) by (split; reflexivity). destruct Z as [Fz Vz].
  rewrite (c137_date eval c d gzero E Fz ltac:(lra)). exact (c134_one f_exp c gzero GE H Fz Vz).
Qed.

(** ** Concrete cases: the 15th of March 2024, 9 in the morning in Seoul; rates
    1/16 at 1 year, 1/8 at 2, 1/16 at 5 *)
Definition eighth : f32 := @B754_finite 24 128 false 8388608 (-26) eq_refl.
Definition sixteenth : f32 := @B754_finite 24 128 false 8388608 (-27) eq_refl.
Lemma eighth_value : finite eighth /\ value eighth = / 8 /\ finite sixteenth /\ value sixteenth = / 16.
Proof. split; [reflexivity|]. split; [|split; [reflexivity|]]; unfold value, eighth, sixteenth; cbn -[IZR]; unfold F2R; cbn -[IZR]; lra. Qed.
Definition ex_eval : odt := civil 2024 3 15 (9 * 3600 * 1000000000) (9 * 3600).
Definition ex_data : vector_data := VectorData [sixteenth; eighth; sixteenth] None [gof_Z 1; gof_Z 2; gof_Z 5] None.
Definition ex_flat : vector_data := VectorData [sixteenth] None [gof_Z 1] None.
Lemma ex_ok : civil_ok 2024 3 15 (9 * 3600 * 1000000000) /\ (2024 + 100 <= 9999)%Z /\ (-93599 <= 9 * 3600 <= 93599)%Z.
Proof. split; [|split; lia]. split; [unfold representable_year; lia|]. split; [split; [lia|vm_compute; split; congruence]|]. unfold day_ns. lia. Qed.
Lemma ex_good : good_rates (vd_times ex_data) (vd_value ex_data) /\ good_rates (vd_times ex_flat) (vd_value ex_flat).
Proof.
  destruct eighth_value as (F8 & V8 & F16 & V16). destruct (small_fin 1 ltac:(lia)) as [F1 R1]. destruct (small_fin 2 ltac:(lia)) as [F2 R2]. destruct (small_fin 5 ltac:(lia)) as [F5 R5].
  assert (B16 : finite sixteenth /\ Rabs (value sixteenth) <= 0.4) by (split; [exact F16|rewrite V16, Rabs_pos_eq; lra]).
  assert (B8 : finite eighth /\ Rabs (value eighth) <= 0.4) by (split; [exact F8|rewrite V8, Rabs_pos_eq; lra]).
  split; (split; [reflexivity|]).
  - split; [repeat (apply Forall_cons; [assumption|]); apply Forall_nil|]. right. cbn [vd_value ex_data List.length]. split; [lia|].
    assert (T : (4 <= 2 ^ 100)%R) by (rewrite p100; pose proof two100_pos; lra).
    split; [reflexivity|]. split; [repeat (apply Forall_cons; [assumption|]); apply Forall_nil|]. split; [|split; [|split; [lra|]]].
    + intros i j x y Q Hx Hy. assert ((j < 3)%nat) by (change 3%nat with (List.length (vd_times ex_data)); apply nth_error_Some; congruence).
      destruct j as [|[|[|j]]]; try lia; destruct i as [|[|i]]; try lia; cbn [nth_error ex_data vd_times] in Hx, Hy; injection Hx as <-; injection Hy as <-; vm_compute; reflexivity.
    + repeat (apply Forall_cons; [assumption|]). apply Forall_nil.
    + intros i a b u w Ha Hb Hu Hw. assert ((i + 1 < 3)%nat) by (change 3%nat with (List.length (vd_times ex_data)); apply nth_error_Some; rewrite Hb; discriminate).
      unfold value in *. fold (real_of eighth) in V8. fold (real_of sixteenth) in V16.
      destruct i as [|[|i]]; [| |lia]; cbn [nth_error Nat.add vd_times vd_value ex_data] in Ha, Hb, Hu, Hw;
        un Ha; un Hb; un Hu; un Hw; rewrite ?R1, ?R2, ?R5, ?V8, ?V16; (split; [lra|]); (apply Rle_trans with 1%R; [apply Rabs_le; lra|lra]).
  - split; [repeat (apply Forall_cons; [assumption|]); apply Forall_nil|]. left. reflexivity.
Qed.
Example c131_hypotheses_met : List.length [sixteenth] = List.length [ex_eval] /\ Forall2 (fun d t => get_time_difference ex_eval d = Ret t) [ex_eval] [gzero].
Proof. split; [reflexivity|]. constructor; [vm_compute; reflexivity|constructor]. Qed.
Example c132_hypotheses_met : odt_ok ex_eval /\ in_the_year 2024 (od_day ex_eval) /\ (instant (civil 2024 12 31 0 (9 * 3600)) + day_ns <= instant (civil 2025 1 1 0 (9 * 3600)))%Z.
Proof.
  destruct ex_ok as (C & R & O). split; [exact (proj1 (eval_ok _ _ _ _ _ C R O))|]. split; [exact (proj2 (eval_ok _ _ _ _ _ C R O))|]. vm_compute. congruence.
Qed.
Example c133_hypotheses_met : civil_ok 2024 3 15 (9 * 3600 * 1000000000) /\ good_rates (vd_times ex_data) (vd_value ex_data) /\ rate_at (vd_times ex_data) (vd_value ex_data) 3.5 (3 / 32).
Proof.
  split; [apply ex_ok|]. split; [apply ex_good|]. right. right. right. exists 1%nat. cbn [vd_times vd_value ex_data nth_error Nat.add].
  destruct eighth_value as (F8 & V8 & F16 & V16). destruct (small_fin 2 ltac:(lia)) as [F2 R2]. destruct (small_fin 5 ltac:(lia)) as [F5 R5]. unfold real_of in *. fold (value (gof_Z 2)) in R2. fold (value (gof_Z 5)) in R5.
  do 4 eexists. split; [reflexivity|]. split; [reflexivity|]. split; [reflexivity|]. split; [reflexivity|]. rewrite R2, R5, V8, V16. lra.
Qed.
(** a reachable curve for every exp *)
Lemma ex_reached : forall f_exp, exists c, reached f_exp c /\ cv_rates c = repeat sixteenth 29.
Proof.
  intro f_exp. destruct ex_ok as (C & R & O). destruct (new_sound f_exp _ _ _ _ _ ex_flat C R O (proj2 ex_good)) as (c & E & S & _). exists c. split; [exact (re_new f_exp _ _ _ _ _ _ c C R O (proj2 ex_good) E)|].
  unfold curve_new in E. cbn [vd_times vd_value ex_flat List.length Nat.eqb negb rbind] in E. destruct (curve_times _) as [ts| |] eqn:ET; cbn [obind] in E; try discriminate E. cbn [rates_at rbind constant_vectorized] in E.
  destruct (linear_new ts _ XNone false) as [[l|]| |]; cbn [rbind] in E; try discriminate E. injection E as <-. cbn [cv_rates]. pose proof (so_29 _ _ S) as L. cbn [cv_times] in L. rewrite L. reflexivity.
Qed.
Example c134_hypotheses_met : exists f_exp c, good_exp f_exp /\ reached f_exp c /\ (22 < 28)%nat /\ nth_error grid 22 = Some [Months 120].
Proof. exists an_exp. destruct (ex_reached an_exp) as (c & H & _). exists c. split; [exact an_exp_good|]. split; [exact H|]. split; [lia|reflexivity]. Qed.
Example c135_hypotheses_met : exists f_exp c t9, good_exp f_exp /\ reached f_exp c /\ Forall (fun r => 0 <= value r <= 0.1) (cv_rates c) /\ nth_error (cv_times c) 28 = Some t9 /\ 0 <= value half < value t9.
Proof.
  exists an_exp. destruct (ex_reached an_exp) as (c & H & RR). exists c. destruct (so_last _ c (reached_sound _ c H)) as (t9 & H9 & B). exists t9. split; [exact an_exp_good|]. split; [exact H|]. split; [|split; [exact H9|]].
  - rewrite RR. apply List.Forall_forall. intros r I. apply repeat_spec in I. subst r. destruct eighth_value as (_ & _ & _ & ->). lra.
  - replace (value half) with (/ 2); [lra|]. unfold value, half. cbn -[IZR]. unfold F2R. cbn -[IZR]. lra.
Qed.
Example c136_hypotheses_met : exists f_exp c t9, reached f_exp c /\ nth_error (cv_times c) 28 = Some t9 /\ value t9 <= value (gof_Z 101).
Proof.
  exists an_exp. destruct (ex_reached an_exp) as (c & H & RR). exists c. destruct (so_last _ c (reached_sound _ c H)) as (t9 & H9 & B). exists t9. split; [exact H|]. split; [exact H9|].
  destruct (small_fin 101 ltac:(lia)) as [F R]. unfold value, real_of in *. rewrite R. lra.
Qed.
Example c137_hypotheses_met : odt_ok ex_eval /\ in_the_year 2024 (od_day ex_eval) /\ in_the_year 2024 (od_day (civil 2024 2 29 0 (9 * 3600))) /\
  in_the_year 2014 (od_day (civil 2014 3 15 0 (9 * 3600))) /\ (instant (civil 2024 2 29 0 (9 * 3600)) + day_ns <= instant ex_eval)%Z.
Proof.
  destruct ex_ok as (C & R & O). split; [exact (proj1 (eval_ok _ _ _ _ _ C R O))|]. split; [exact (proj2 (eval_ok _ _ _ _ _ C R O))|].
  split; [split; apply Z.leb_le; reflexivity|]. split; [split; apply Z.leb_le; reflexivity|]. vm_compute. congruence.
Qed.
Print Assumptions c131_data.
Print Assumptions c131_dates.
Print Assumptions c132_later.
Print Assumptions c132_zero.
Print Assumptions c133_errors.
Print Assumptions c133_new.
Print Assumptions c134_one.
Print Assumptions c134_today.
Print Assumptions c134_fresh.
Print Assumptions c134_cached.
Print Assumptions c135_between.
Print Assumptions c135_positive.
Print Assumptions c136_outside.
Print Assumptions c136_last_refuted.
Print Assumptions c137_date.
Print Assumptions c137_past.
Print Assumptions c137_past_year_refuted.
