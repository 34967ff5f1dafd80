(** QLinProps.v -- linear interpolation: the properties (C113-C117). *)
From Coq Require Import ZArith Arith List Bool Lia Reals Lra.
From Flocq Require Import Core IEEE754.BinarySingleNaN.
From Verif Require Import Base FloatModel FloatFacts KrxModel QFindModel QFindSpec QFindProofs QFindProps QInterpModel QInterpSpec QInterpProofs QFloatErr QLinProofs.
Import ListNotations.
Open Scope nat_scope.

(** ** C113: construction, and an answer for every x *)
Theorem c113_new : forall d v extra allow,
  (length d <> length v -> linear_new d v extra allow = Ret RErr) /\
  (length d = length v -> d <> [] -> (exists i a b, nth_error d i = Some a /\ nth_error d (i + 1) = Some b /\ fcmp a b = Some Gt) -> linear_new d v extra allow = Ret RErr) /\
  (length d = length v -> d <> [] -> (forall i a b, nth_error d i = Some a -> nth_error d (i + 1) = Some b -> fcmp a b <> Some Gt) ->
    exists l, linear_new d v extra allow = Ret (ROk l) /\ l_domain l = d /\ l_value l = v /\ l_extra l = extra /\ l_allow l = allow).
Proof.
  intros d v extra allow. destruct (linear_new_cases d v extra allow) as [(A & E)|[(A & B & E)|[(A & B & (i & a & b & Ha & Hb & C) & E)|(A & B & C & E)]]]; rewrite E.
  - split; [reflexivity|]. split; intros; congruence.
  - split; [congruence|]. split; intros; congruence.
  - split; [congruence|]. split; [reflexivity|]. intros _ _ Q. exfalso. exact (Q i a b Ha Hb C).
  - split; [congruence|]. split.
    + intros _ _ (i & a & b & Ha & Hb & Q). exfalso. exact (C i a b Ha Hb Q).
    + intros. eexists. split; [reflexivity|]. cbn. auto.
Qed.
(** REFUTED: an empty domain is not an error but a panic *)
Theorem c113_empty_refuted : forall extra allow, linear_new [] [] extra allow = Panic.
Proof. reflexivity. Qed.
(** two knots or more, whatever the knots and whatever x (NaN included) *)
Theorem c113_answers : forall d v extra allow l x, linear_new d v extra allow = Ret (ROk l) -> 2 <= length d -> exists r, linear_interpolate l x = Ret r.
Proof.
  intros d v extra allow l x E G. destruct (linear_new_cases d v extra allow) as [(A & E')|[(A & B & E')|[(A & B & _ & E')|(A & B & C & E')]]]; rewrite E in E'; try discriminate E'.
  injection E' as ->. apply linear_answers; assumption.
Qed.
(** REFUTED for one knot: linear extrapolation panics on every number, on both sides *)
Theorem c113_single_refuted : forall a u x, number a -> number x ->
  exists l, linear_new [a] [u] XLinear true = Ret (ROk l) /\ linear_interpolate l x = Panic.
Proof.
  intros a u x Na Nx. eexists. split; [reflexivity|]. destruct (le_or_lt fcmp number f_order a x Na Nx) as [G|G].
  - unfold linear_interpolate. cbn [slopes]. rewrite (above_at [a] [u] XLinear true (Forall_cons a Na (Forall_nil _)) ltac:(intros i j y z Q Hy Hz; destruct j as [|[|j]]; [lia|discriminate Hz|discriminate Hz]) x a a _ Nx eq_refl eq_refl G). reflexivity.
  - unfold linear_interpolate. cbn [slopes]. rewrite (below_at [a] [u] XLinear true x a _ Nx eq_refl G). reflexivity.
Qed.
(** one knot otherwise *)
Theorem c113_single : forall a u x extra allow, number a -> number x -> ~ (allow = true /\ extra = XLinear) ->
  exists l, linear_new [a] [u] extra allow = Ret (ROk l) /\ linear_interpolate l x = Ret (if allow then match extra with XFlat => ROk u | _ => RErr end else RErr).
Proof.
  intros a u x extra allow Na Nx H. eexists. split; [reflexivity|]. destruct (le_or_lt fcmp number f_order a x Na Nx) as [G|G]; unfold linear_interpolate; cbn [slopes].
  - rewrite (above_at [a] [u] extra allow (Forall_cons a Na (Forall_nil _)) ltac:(intros i j y z Q Hy Hz; destruct j as [|[|j]]; [lia|discriminate Hz|discriminate Hz]) x a a _ Nx eq_refl eq_refl G).
    destruct allow; [|reflexivity]. destruct extra; [reflexivity|reflexivity|exfalso; auto].
  - rewrite (below_at [a] [u] extra allow x a _ Nx eq_refl G). destruct allow; [|reflexivity]. destruct extra; [reflexivity|reflexivity|exfalso; auto].
Qed.

(** ** C114: between the knots: close to the chord *)
Definition real_of (x : f32) : R := B2R x.
(** values of magnitude at most M, slopes and distances of magnitude at most
    2^100 *)
Definition gentle (d v : list f32) (M : R) : Prop :=
  length d = length v /\ Forall finite d /\ strictly_sorted fcmp d /\ Forall (fun u => finite u /\ (Rabs (real_of u) <= M)%R) v /\ (M <= 2 ^ 100)%R /\
  forall i a b u w, nth_error d i = Some a -> nth_error d (i + 1) = Some b -> nth_error v i = Some u -> nth_error v (i + 1) = Some w ->
    (real_of b - real_of a <= 2 ^ 100 /\ Rabs (real_of w - real_of u) <= 2 ^ 100 * (real_of b - real_of a))%R.
(** the straight line through (a, u) and (b, w), at x *)
Definition straight (a b u w x : R) : R := (u + (w - u) / (b - a) * (x - a))%R.
Lemma p100 : (2 ^ 100)%R = two100.
Proof. unfold two100. rewrite pow_IZR. reflexivity. Qed.
Lemma fin_of : forall x : f32, finite x -> fin 24 128 x (real_of x).
Proof. intros x F. split; [exact F|reflexivity]. Qed.
Lemma finite_numbers : forall d, Forall finite d -> Forall number d.
Proof. intros d H. eapply Forall_impl; [|exact H]. exact finite_number. Qed.
Lemma gentle_line : forall d v M i a b u w x, gentle d v M -> finite x -> nth_error d i = Some a -> nth_error d (i + 1) = Some b -> nth_error v i = Some u -> nth_error v (i + 1) = Some w ->
  (real_of a <= real_of x <= real_of b)%R ->
  let y := gadd u (gmul (gdiv (gsub w u) (gsub b a)) (gsub x a)) in
  finite y /\ (Rabs (real_of y - straight (real_of a) (real_of b) (real_of u) (real_of w) (real_of x)) <= 12 * / 2 ^ 24 * M + / 2 ^ 149 * (1 + (real_of b - real_of a)))%R.
Proof.
  intros d v M i a b u w x (L & FD & SD & FV & HM & GE) Fx Ha Hb Hu Hw X y. destruct (GE i a b u w Ha Hb Hu Hw) as [G1 G2].
  assert (Fa : finite a) by (rewrite Forall_forall in FD; eauto using nth_error_In). assert (Fb : finite b) by (rewrite Forall_forall in FD; eauto using nth_error_In).
  rewrite Forall_forall in FV. destruct (FV u (nth_error_In _ _ Hu)) as [Fu Bu]. destruct (FV w (nth_error_In _ _ Hw)) as [Fw Bw].
  assert (AB : (real_of a < real_of b)%R) by (apply flt_finite; try assumption; apply (SD i (i + 1)); [lia|exact Ha|exact Hb]).
  rewrite p100 in *.
  destruct (line_close a b u w x (real_of a) (real_of b) (real_of u) (real_of w) (real_of x) M (fin_of a Fa) (fin_of b Fb) (fin_of u Fu) (fin_of w Fw) (fin_of x Fx) AB X G1 Bu Bw HM G2) as (r & Fr & E).
  split; [exact (proj1 Fr)|]. unfold real_of at 1, y. rewrite (proj2 Fr). unfold straight. unfold chord in E.
  replace (12 * / 2 ^ 24)%R with (12 * e24)%R by (unfold e24; f_equal; f_equal; lra).
  replace (/ 2 ^ 149)%R with (2 * tiny)%R; [exact E|]. unfold tiny. change 2%R with (bpow radix2 1) at 1. rewrite <- bpow_plus. change (1 + -150)%Z with (Z.opp (Z.of_nat 149)). rewrite bpow_opp. rewrite <- IZR_Zpower_nat. rewrite pow_IZR. reflexivity.
Qed.
Theorem c114_accurate : forall d v extra allow M l x d0 d9, gentle d v M -> linear_new d v extra allow = Ret (ROk l) -> finite x ->
  nth_error d 0 = Some d0 -> nth_error d (length d - 1) = Some d9 -> (real_of d0 <= real_of x < real_of d9)%R ->
  exists i a b u w y, nth_error d i = Some a /\ nth_error d (i + 1) = Some b /\ nth_error v i = Some u /\ nth_error v (i + 1) = Some w /\
    (real_of a <= real_of x < real_of b)%R /\ linear_interpolate l x = Ret (ROk y) /\ finite y /\
    (Rabs (real_of y - straight (real_of a) (real_of b) (real_of u) (real_of w) (real_of x)) <= 12 * / 2 ^ 24 * M + / 2 ^ 149 * (1 + (real_of b - real_of a)))%R.
Proof.
  intros d v extra allow M l x d0 d9 GE E Fx H0 H9 [X0 X9]. pose proof GE as (L & FD & SD & _).
  destruct (linear_new_cases d v extra allow) as [(A & E')|[(A & B & E')|[(A & B & _ & E')|(A & B & C & E')]]]; rewrite E in E'; try discriminate E'. injection E' as ->. clear E.
  pose proof (finite_numbers d FD) as ND. pose proof (finite_number x Fx) as Nx.
  assert (F0 : finite d0) by (rewrite Forall_forall in FD; eauto using nth_error_In). assert (F9 : finite d9) by (rewrite Forall_forall in FD; eauto using nth_error_In).
  assert (G0 : le fcmp d0 x) by (apply fle_finite; assumption). assert (G9 : lt fcmp x d9) by (apply flt_finite; assumption).
  pose proof (strict_sorted fcmp d SD) as SV.
  unfold linear_interpolate. cbn [l_domain]. rewrite (inside_at d v extra allow ND x d0 d9 _ Nx H0 H9 G0 G9).
  destruct (bs_total fcmp d x B) as (i & E & Li). rewrite E. cbn [obind].
  pose proof (bs_place fcmp number f_order d x ND Nx SV SD i E) as (_ & _ & _ & PL).
  destruct (PL d0 d9 H0 H9 G0 G9) as (a & b & Ha & Hb & LA & LB).
  assert (i + 1 < length d) by (apply nth_error_Some; congruence).
  destruct (at_lt _ v i ltac:(lia)) as (u & Hu & _). destruct (at_lt _ v (i + 1) ltac:(lia)) as (w & Hw & _).
  rewrite (line_value d v extra allow i a b u w x Ha Hb Hu Hw).
  assert (Fa : finite a) by (rewrite Forall_forall in FD; eauto using nth_error_In). assert (Fb : finite b) by (rewrite Forall_forall in FD; eauto using nth_error_In).
  apply fle_finite in LA; try assumption. apply flt_finite in LB; try assumption.
  eexists i, a, b, u, w, _. split; [exact Ha|]. split; [exact Hb|]. split; [exact Hu|]. split; [exact Hw|]. split; [split; assumption|]. split; [reflexivity|].
  apply (gentle_line d v M i); try assumption. unfold real_of. lra.
Qed.

(** ** C115: at the knots *)
Lemma gentle_slope : forall d v M i a b u w, gentle d v M -> nth_error d i = Some a -> nth_error d (i + 1) = Some b -> nth_error v i = Some u -> nth_error v (i + 1) = Some w ->
  exists s, fin 24 128 (gdiv (gsub w u) (gsub b a)) s /\ (Rabs s <= bpow radix2 120)%R.
Proof.
  intros d v M i a b u w (L & FD & SD & FV & HM & GE) Ha Hb Hu Hw. destruct (GE i a b u w Ha Hb Hu Hw) as [G1 G2]. rewrite p100 in *.
  assert (Fa : finite a) by (rewrite Forall_forall in FD; eauto using nth_error_In). assert (Fb : finite b) by (rewrite Forall_forall in FD; eauto using nth_error_In).
  rewrite Forall_forall in FV. destruct (FV u (nth_error_In _ _ Hu)) as [Fu Bu]. destruct (FV w (nth_error_In _ _ Hw)) as [Fw Bw].
  assert (AB : (real_of a < real_of b)%R) by (apply flt_finite; try assumption; apply (SD i (i + 1)); [lia|exact Ha|exact Hb]).
  pose proof two100_pos as T0. pose proof e24_pos as E0. pose proof tiny_small as N1.
  pose proof (abs_le_2 _ _ _ Bw Bu) as WU.
  destruct (sub_err w u _ _ (fin_of w Fw) (fin_of u Fu)) as (p & d1 & Fp & D1 & Ep); [apply two100_127; lra|].
  destruct (sub_err b a _ _ (fin_of b Fb) (fin_of a Fa)) as (q & d2 & Fq & D2 & Eq); [apply two100_127; rewrite Rabs_pos_eq by lra; lra|].
  assert (D2' := Rabs_le_inv _ _ D2). assert (Q1 : (0 < 1 + d2)%R) by (unfold e24 in D2'; lra).
  assert (Q0 : (q <> 0)%R) by (rewrite Eq; apply Rmult_integral_contrapositive_currified; lra).
  destruct (err_inv d2 D2) as (i2 & I2 & Ei2). destruct (err_mul 1 1.001 d1 i2) as (z2 & Z2 & Ez2); try lra.
  assert (Epq : (p / q = (real_of w - real_of u) / (real_of b - real_of a) * (1 + z2))%R) by (rewrite <- Ez2, <- Ei2, Ep, Eq; field; lra).
  assert (HS : (Rabs ((real_of w - real_of u) / (real_of b - real_of a)) <= two100)%R).
  { unfold Rdiv. rewrite Rabs_mult, Rabs_inv, (Rabs_pos_eq (real_of b - real_of a)) by lra. apply Rmult_le_reg_r with (real_of b - real_of a)%R; [lra|]. rewrite Rmult_assoc, Rinv_l by lra. lra. }
  assert (HB : (Rabs (p / q) <= 1.001 * two100)%R).
  { rewrite Epq. pose proof (near_bound 3 ((real_of w - real_of u) / (real_of b - real_of a)) z2 ltac:(lra) ltac:(lra)). lra. }
  destruct (div_err _ _ p q Fp Fq Q0) as (s & d3 & t3 & Fs & D3 & T3 & Es); [apply two100_127; lra|].
  exists s. split; [exact Fs|]. rewrite Es. apply Rle_trans with (1 := Rabs_triang _ _).
  pose proof (near_bound 1 (p / q) d3 ltac:(lra) ltac:(lra)) as NB.
  apply Rle_trans with (two100 * 3)%R; [lra|]. unfold two100. rewrite <- mult_IZR. rewrite <- (IZR_Zpower radix2 120) by lia. apply IZR_le. apply Z.leb_le. reflexivity.
Qed.
Lemma knot_value : forall u a s : f32, finite u -> finite a -> finite s ->
  let y := gadd u (gmul s (gsub a a)) in finite y /\ real_of y = real_of u.
Proof.
  intros u a s Fu Fa Fs y. pose proof (fin_sub 24 128 a a _ _ (fin_of a Fa) (fin_of a Fa)) as A.
  replace (real_of a - real_of a)%R with 0%R in A by lra. rewrite rnd_0 in A by exact p24.
  assert (Z : (Rabs 0 <= huge 128)%R) by (rewrite Rabs_R0; rewrite hug; apply bpow_ge_0). specialize (A Z).
  pose proof (fin_mul 24 128 s _ _ _ (fin_of s Fs) A) as B. rewrite Rmult_0_r, rnd_0 in B by exact p24. specialize (B Z).
  pose proof (fin_add 24 128 u _ _ _ (fin_of u Fu) B) as C. rewrite Rplus_0_r in C.
  assert (HU : (Rabs (real_of u) < bpow radix2 128)%R) by apply abs_B2R_lt_emax.
  destruct (Rle_or_lt (Rabs (real_of u)) (huge 128)) as [G|G].
  - specialize (C G). unfold real_of in C. rewrite (rnd_B2R 24 128) in C. destruct C as [C1 C2]. split; [exact C1|exact C2].
  - (* the sum is exact, so it cannot overflow *)
    clear C. unfold y, gadd. pose proof (Bplus_correct 24 128 _ _ mode_NE u (gmul s (gsub a a)) Fu (proj1 B)) as P.
    rewrite (proj2 B), Rplus_0_r in P. change (round radix2 (SpecFloat.fexp 24 128) (round_mode mode_NE) (B2R u)) with (rnd 24 128 (B2R u)) in P.
    rewrite (rnd_B2R 24 128) in P. rewrite Rlt_bool_true in P by exact HU. destruct P as (P1 & P2 & _). split; [exact P2|exact P1].
Qed.
Theorem c115_knots : forall d v extra allow M l i a u, gentle d v M -> linear_new d v extra allow = Ret (ROk l) ->
  nth_error d i = Some a -> nth_error v i = Some u -> i + 1 < length d ->
  exists y, linear_interpolate l a = Ret (ROk y) /\ finite y /\ real_of y = real_of u.
Proof.
  intros d v extra allow M l i a u GE E Ha Hu LI. pose proof GE as (L & FD & SD & FV & _).
  destruct (linear_new_cases d v extra allow) as [(A & E')|[(A & B & E')|[(A & B & _ & E')|(A & B & C & E')]]]; rewrite E in E'; try discriminate E'. injection E' as ->. clear E.
  pose proof (finite_numbers d FD) as ND. pose proof (strict_sorted fcmp d SD) as SV.
  assert (Fa : finite a) by (rewrite Forall_forall in FD; eauto using nth_error_In). pose proof (finite_number a Fa) as Na.
  destruct (at_lt _ d 0 ltac:(lia)) as (d0 & H0 & _). destruct (at_lt _ d (length d - 1) ltac:(lia)) as (d9 & H9 & _).
  assert (G0 : le fcmp d0 a) by (apply (below fcmp number f_order d ND SV 0 i); [lia|exact H0|exact Ha]).
  assert (G9 : lt fcmp a d9) by (apply (SD i (length d - 1)); [lia|exact Ha|exact H9]).
  unfold linear_interpolate. cbn [l_domain]. rewrite (inside_at d v extra allow ND a d0 d9 _ Na H0 H9 G0 G9).
  destruct (bs_total fcmp d a B) as (j & E & Lj). rewrite E. cbn [obind].
  pose proof (bs_place fcmp number f_order d a ND Na SV SD j E) as PJ.
  destruct (at_lt _ d (i + 1) LI) as (b & Hb & _). destruct (at_lt _ v (i + 1) ltac:(lia)) as (w & Hw & _).
  assert (j = i).
  { apply (place_unique fcmp number f_order d a j i ND Na SD PJ). split; [lia|]. split; [|split].
    - intros z Hz LT. exfalso. rewrite H0 in Hz. injection Hz as <-. exact (proj1 (lt_not_le fcmp number f_order a d0 Na (P_at number d ND _ _ H0)) LT G0).
    - intros z Hz LE. exfalso. rewrite H9 in Hz. injection Hz as <-. exact (proj1 (lt_not_le fcmp number f_order a d9 Na (P_at number d ND _ _ H9)) G9 LE).
    - intros a' b' _ _ _ _. exists a, b. split; [exact Ha|]. split; [exact Hb|]. split; [apply (le_refl' fcmp number f_order); exact Na|]. apply (SD i (i + 1)); [lia|exact Ha|exact Hb]. }
  subst j. rewrite (line_value d v extra allow i a b u w a Ha Hb Hu Hw). eexists. split; [reflexivity|].
  destruct (gentle_slope d v M i a b u w GE Ha Hb Hu Hw) as (s & Fs & _).
  apply knot_value; [|exact Fa|exact (proj1 Fs)]. rewrite Forall_forall in FV. exact (proj1 (FV u (nth_error_In _ _ Hu))).
Qed.
(** the last knot: only with extrapolation *)
Theorem c115_last : forall d v M l extra i a u, gentle d v M -> linear_new d v extra true = Ret (ROk l) -> extra <> XNone -> 2 <= length d ->
  i = length d - 1 -> nth_error d i = Some a -> nth_error v i = Some u ->
  exists y, linear_interpolate l a = Ret (ROk y) /\ finite y /\ real_of y = real_of u.
Proof.
  intros d v M l extra i a u GE E NX L2 -> Ha Hu. pose proof GE as (L & FD & SD & FV & _).
  destruct (linear_new_cases d v extra true) as [(A & E')|[(A & B & E')|[(A & B & _ & E')|(A & B & C & E')]]]; rewrite E in E'; try discriminate E'. injection E' as ->. clear E.
  pose proof (finite_numbers d FD) as ND. pose proof (strict_sorted fcmp d SD) as SV.
  assert (Fa : finite a) by (rewrite Forall_forall in FD; eauto using nth_error_In). pose proof (finite_number a Fa) as Na.
  assert (Fu : finite u) by (rewrite Forall_forall in FV; exact (proj1 (FV u (nth_error_In _ _ Hu)))).
  destruct (at_lt _ d 0 ltac:(lia)) as (d0 & H0 & _).
  unfold linear_interpolate. cbn [l_domain]. rewrite (above_at d v extra true ND SV a d0 a _ Na H0 Ha (le_refl' fcmp number f_order a Na)).
  destruct extra; [congruence| |].
  - rewrite (at_some _ _ _ _ Hu). cbn [obind]. exists u. auto.
  - unfold minus_. destruct (Nat.leb_spec 2 (length d)); [|lia]. cbn [obind]. unfold line. cbn [l_value l_slopes l_domain].
    rewrite (at_some _ _ _ _ Hu), (at_some _ _ _ _ Ha). cbn [obind].
    destruct (at_lt _ d (length d - 2) ltac:(lia)) as (p & Hp & _). destruct (at_lt _ v (length d - 2) ltac:(lia)) as (q & Hq & _).
    assert (Ha' : nth_error d (length d - 2 + 1) = Some a) by (replace (length d - 2 + 1) with (length d - 1) by lia; exact Ha).
    assert (Hu' : nth_error v (length d - 2 + 1) = Some u) by (replace (length d - 2 + 1) with (length d - 1) by lia; exact Hu).
    rewrite (at_some _ _ _ _ (slopes_nth d v _ p a q u Hp Ha' Hq Hu')). cbn [obind]. eexists. split; [reflexivity|].
    destruct (gentle_slope d v M _ p a q u GE Hp Ha' Hq Hu') as (s & Fs & _). apply knot_value; [exact Fu|exact Fa|exact (proj1 Fs)].
Qed.
(** REFUTED: the last knot belongs to the domain, but without extrapolation it is
    an error *)
Theorem c115_last_refuted : forall d v extra l a, linear_new d v extra false = Ret (ROk l) -> Forall number d -> sorted fcmp d -> nth_error d (length d - 1) = Some a ->
  linear_interpolate l a = Ret RErr.
Proof.
  intros d v extra l a E ND SV Ha.
  destruct (linear_new_cases d v extra false) as [(A & E')|[(A & B & E')|[(A & B & _ & E')|(A & B & C & E')]]]; rewrite E in E'; try discriminate E'. injection E' as ->. clear E.
  assert (G : 0 < length d) by (destruct d; [congruence|cbn; lia]). destruct (at_lt _ d 0 G) as (d0 & H0 & _). pose proof (P_at number d ND _ _ Ha) as Na.
  unfold linear_interpolate. cbn [l_domain]. rewrite (above_at d v extra false ND SV a d0 a _ Na H0 Ha (le_refl' fcmp number f_order a Na)). reflexivity.
Qed.
(** REFUTED without the bound on the slopes: knots 0 and 2^-149 with the finite
    values 0 and 1 give NaN at the knot 0 *)
Definition least : f32 := @B754_finite 24 128 false 1 (-149) eq_refl.
Theorem c115_steep_refuted : exists l y, linear_new [gof_Z 0; least] [gof_Z 0; gof_Z 1] XFlat true = Ret (ROk l) /\
  finite (gof_Z 0) /\ finite least /\ finite (gof_Z 1) /\ lt fcmp (gof_Z 0) least /\ linear_interpolate l (gof_Z 0) = Ret (ROk y) /\ is_nan y = true.
Proof.
  eexists _, _. split; [reflexivity|]. split; [reflexivity|]. split; [reflexivity|]. split; [reflexivity|]. split; [reflexivity|]. split; [reflexivity|]. reflexivity.
Qed.

(** ** C116: many points *)
Lemma map_out_forall2 : forall A B (f : A -> outcome B) l rs, map_out f l = Ret rs -> Forall2 (fun x y => f x = Ret y) l rs.
Proof.
  intros A B f. induction l as [|x l IH]; intros rs H; cbn [map_out] in H; [injection H as <-; constructor|].
  destruct (f x) as [y| |] eqn:E; cbn [obind] in H; try discriminate H. destruct (map_out f l) as [ys| |] eqn:E'; cbn [obind] in H; try discriminate H.
  injection H as <-. constructor; [exact E|]. apply IH. reflexivity.
Qed.
Theorem c116_same : forall d v extra allow l xs, linear_new d v extra allow = Ret (ROk l) -> Forall number d -> strictly_sorted fcmp d -> 2 <= length d ->
  Forall number xs -> sorted fcmp xs ->
  exists a, linear_vectorized l xs = Ret a /\ pointwise (linear_interpolate l) xs a.
Proof.
  intros d v extra allow l xs E ND SD L2 NX SX.
  assert (AN : forall x, exists r, linear_interpolate l x = Ret r) by (intro x; exact (c113_answers d v extra allow l x E L2)).
  destruct (linear_new_cases d v extra allow) as [(A & E')|[(A & B & E')|[(A & B & _ & E')|(A & B & C & E')]]]; rewrite E in E'; try discriminate E'. injection E' as ->. clear E.
  destruct (c109_same f32 fcmp number d xs f_order ND NX B SD SX) as (rs & E1 & E2 & _).
  unfold linear_vectorized. cbn [l_domain]. rewrite E1. cbn [obind].
  apply map_res2_pointwise with (Q := fun x i => binary_search_index fcmp d x = Ret i); [apply map_out_forall2; exact E2|].
  intros x i _ Q. split; [|apply AN]. unfold linear_interpolate. cbn [l_domain]. rewrite Q. reflexivity.
Qed.

(** ** C117: outside *)
Theorem c117_outside : forall d v extra allow l x d0 d1 d8 d9 v0 v1 v8 v9, linear_new d v extra allow = Ret (ROk l) -> Forall number d -> sorted fcmp d -> number x -> 2 <= length d ->
  nth_error d 0 = Some d0 -> nth_error d 1 = Some d1 -> nth_error d (length d - 2) = Some d8 -> nth_error d (length d - 1) = Some d9 ->
  nth_error v 0 = Some v0 -> nth_error v 1 = Some v1 -> nth_error v (length d - 2) = Some v8 -> nth_error v (length d - 1) = Some v9 ->
  (lt fcmp x d0 -> linear_interpolate l x = Ret (if allow then match extra with
     | XFlat => ROk v0
     | XLinear => ROk (gadd v0 (gmul (gdiv (gsub v1 v0) (gsub d1 d0)) (gsub x d0)))
     | XNone => RErr end else RErr)) /\
  (le fcmp d9 x -> linear_interpolate l x = Ret (if allow then match extra with
     | XFlat => ROk v9
     | XLinear => ROk (gadd v9 (gmul (gdiv (gsub v9 v8) (gsub d9 d8)) (gsub x d9)))
     | XNone => RErr end else RErr)).
Proof.
  intros d v extra allow l x d0 d1 d8 d9 v0 v1 v8 v9 E ND SV Nx L2 H0 H1 H8 H9 V0 V1 V8 V9.
  destruct (linear_new_cases d v extra allow) as [(A & E')|[(A & B & E')|[(A & B & _ & E')|(A & B & C & E')]]]; rewrite E in E'; try discriminate E'. injection E' as ->. clear E.
  unfold linear_interpolate. cbn [l_domain]. split; intro G.
  - rewrite (below_at d v extra allow x d0 _ Nx H0 G). destruct allow; [|reflexivity]. destruct extra; [reflexivity| |].
    + rewrite (at_some _ _ _ _ V0). reflexivity.
    + exact (line_value d v XLinear true 0 d0 d1 v0 v1 x H0 H1 V0 V1).
  - rewrite (above_at d v extra allow ND SV x d0 d9 _ Nx H0 H9 G). destruct allow; [|reflexivity]. destruct extra; [reflexivity| |].
    + rewrite (at_some _ _ _ _ V9). reflexivity.
    + unfold minus_. destruct (Nat.leb_spec 2 (length d)); [|lia]. cbn [obind]. unfold line. cbn [l_value l_slopes l_domain].
      rewrite (at_some _ _ _ _ V9), (at_some _ _ _ _ H9). cbn [obind].
      assert (H9' : nth_error d (length d - 2 + 1) = Some d9) by (replace (length d - 2 + 1) with (length d - 1) by lia; exact H9).
      assert (V9' : nth_error v (length d - 2 + 1) = Some v9) by (replace (length d - 2 + 1) with (length d - 1) by lia; exact V9).
      rewrite (at_some _ _ _ _ (slopes_nth d v _ d8 d9 v8 v9 H8 H9' V8 V9')). reflexivity.
Qed.

(** ** a concrete curve: knots 0, 1, 2 with values 1, 3, 2 *)
Definition ex_d : list f32 := [gof_Z 0; gof_Z 1; gof_Z 2].
Definition ex_v : list f32 := [gof_Z 1; gof_Z 3; gof_Z 2].
Lemma small_fin : forall n, (Z.abs n <= 2 ^ 24)%Z -> finite (gof_Z n) /\ real_of (gof_Z n) = IZR n.
Proof.
  intros n N. pose proof (fin_of_Z 24 128 n) as H. rewrite (rnd_int 24 128 n) in H by exact N. apply H.
  rewrite <- abs_IZR. apply Rle_trans with (IZR (2 ^ 24)); [apply IZR_le; exact N|]. rewrite hug. rewrite <- (IZR_Zpower radix2 127) by lia. apply IZR_le. apply Z.leb_le. reflexivity.
Qed.
(* strip Some without touching the numbers inside *)
Ltac un H := match type of H with Some ?x = Some ?y => apply (f_equal (fun o => match o with Some z => z | None => x end)) in H; cbv beta iota in H; subst y end.
Lemma ex_gentle : gentle ex_d ex_v 4.
Proof.
  destruct (small_fin 0 ltac:(lia)) as [F0 R0]. destruct (small_fin 1 ltac:(lia)) as [F1 R1]. destruct (small_fin 2 ltac:(lia)) as [F2 R2]. destruct (small_fin 3 ltac:(lia)) as [F3 R3].
  assert (T : (4 <= 2 ^ 100)%R) by (rewrite p100; pose proof two100_pos; lra).
  split; [reflexivity|]. split; [repeat constructor; assumption|]. split; [|split; [|split; [exact T|]]].
  - intros i j x y Q Hx Hy. assert (j < 3) by (change 3 with (length ex_d); apply nth_error_Some; congruence).
    destruct j as [|[|[|j]]]; try lia; destruct i as [|[|i]]; try lia; cbn [nth_error ex_d] in Hx, Hy; injection Hx as <-; injection Hy as <-; vm_compute; reflexivity.
  - unfold ex_v. repeat constructor; try assumption; rewrite ?R1, ?R2, ?R3; rewrite Rabs_pos_eq; lra.
  - intros i a b u w Ha Hb Hu Hw. assert (i + 1 < 3) by (change 3 with (length ex_d); apply nth_error_Some; congruence).
    destruct i as [|[|i]]; [| |lia]; cbn [nth_error ex_d ex_v Nat.add] in Ha, Hb, Hu, Hw;
      un Ha; un Hb; un Hu; un Hw; rewrite ?R0, ?R1, ?R2, ?R3; (split; [lra|]);
      (apply Rle_trans with 4%R; [apply Rabs_le; lra|lra]).
Qed.
Example c113_hypotheses_met : exists l, linear_new ex_d ex_v XFlat true = Ret (ROk l) /\ 2 <= length ex_d.
Proof. eexists. split; [reflexivity|]. cbn. lia. Qed.
(** the interpolator gives y at x *)
Definition gives (l : outcome (rresult linear)) (x y : f32) : bool :=
  match l with Ret (ROk l) => match linear_interpolate l x with Ret (ROk z) => geq z y | _ => false end | _ => false end.
(** half way: the exact value is 2 *)
Definition half : f32 := @B754_finite 24 128 false 8388608 (-24) eq_refl.
Example c114_hypotheses_met : gentle ex_d ex_v 4 /\ finite half /\ (real_of (gof_Z 0) <= real_of half < real_of (gof_Z 2))%R /\
  straight 0 1 1 3 (/ 2) = 2%R /\
  gives (linear_new ex_d ex_v XFlat true) half (gof_Z 2) = true.
Proof.
  destruct (small_fin 0 ltac:(lia)) as [F0 R0]. destruct (small_fin 2 ltac:(lia)) as [F2 R2].
  split; [exact ex_gentle|]. split; [reflexivity|]. split; [|split; [unfold straight; lra|]].
  - rewrite R0, R2. replace (real_of half) with (/ 2)%R; [lra|]. unfold real_of, half. cbn -[IZR]. unfold F2R. cbn -[IZR]. lra.
  - vm_compute. reflexivity.
Qed.
Example c115_hypotheses_met : gentle ex_d ex_v 4 /\ nth_error ex_d 1 = Some (gof_Z 1) /\ nth_error ex_v 1 = Some (gof_Z 3) /\ 1 + 1 < length ex_d.
Proof. split; [exact ex_gentle|]. split; [reflexivity|]. split; [reflexivity|]. cbn. lia. Qed.
Example c116_hypotheses_met : Forall number ex_d /\ strictly_sorted fcmp ex_d /\ Forall number [gof_Z 0; half; half; gof_Z 1] /\ sorted fcmp [gof_Z 0; half; half; gof_Z 1].
Proof.
  split; [apply finite_numbers; apply ex_gentle|]. split; [apply ex_gentle|]. split; [repeat constructor|].
  intros i j x y Q Hx Hy. assert (j < 4) by (change 4 with (length [gof_Z 0 : f32; half; half; gof_Z 1]); apply nth_error_Some; congruence).
  destruct j as [|[|[|[|j]]]]; try lia; destruct i as [|[|[|i]]]; try lia; cbn [nth_error] in Hx, Hy; injection Hx as <-; injection Hy as <-; unfold le; vm_compute; auto.
Qed.
(** x = 3, one past the last knot: flat gives 2, linear gives 1 *)
Example c117_hypotheses_met : le fcmp (gof_Z 2) (gof_Z 3 : f32) /\
  gives (linear_new ex_d ex_v XFlat true) (gof_Z 3) (gof_Z 2) = true /\ gives (linear_new ex_d ex_v XLinear true) (gof_Z 3) (gof_Z 1) = true.
Proof.
  split; [unfold le; vm_compute; auto|]. split; vm_compute; reflexivity.
Qed.
Print Assumptions c113_new.
Print Assumptions c113_empty_refuted.
Print Assumptions c113_answers.
Print Assumptions c113_single_refuted.
Print Assumptions c113_single.
Print Assumptions c114_accurate.
Print Assumptions c115_knots.
Print Assumptions c115_last.
Print Assumptions c115_last_refuted.
Print Assumptions c115_steep_refuted.
Print Assumptions c116_same.
Print Assumptions c117_outside.
