(** QDistProps.v -- spreading a value over a grid: the properties (C121, C122). *)
From Coq Require Import ZArith Arith List Bool Lia Reals Lra.
From Flocq Require Import Core IEEE754.BinarySingleNaN.
From Verif Require Import Base FloatModel FloatFacts KrxModel QFindModel QFindSpec QFindProofs QFindProps QInterpModel QInterpSpec QInterpProofs QFloatErr QLinProofs QLinProps.
Import ListNotations.
Open Scope nat_scope.

(** [w] is [v] with entry [i] replaced by [y], all others kept *)
Definition replaced {A} (v : list A) (i : nat) (y : A) (w : list A) : Prop :=
  i < length v /\ length w = length v /\ nth_error w i = Some y /\ forall k, k <> i -> nth_error w k = nth_error v k.
Lemma set_nth_replaced : forall A (v : list A) i y, i < length v -> replaced v i y (set_nth v i y).
Proof.
  intros A. induction v as [|x v IH]; intros i y H; [cbn in H; lia|]. destruct i as [|i]; cbn [set_nth].
  - split; [exact H|]. split; [reflexivity|]. split; [reflexivity|]. intros [|k] Hk; [congruence|reflexivity].
  - cbn in H. destruct (IH i y ltac:(lia)) as (A1 & A2 & A3 & A4). split; [cbn; lia|]. split; [cbn; lia|]. split; [exact A3|]. intros [|k] Hk; [reflexivity|]. apply A4. lia.
Qed.
Lemma add_at_replaced : forall v i x o, nth_error v i = Some o -> exists w, add_at v i x = Ret w /\ replaced v i (gadd o x) w.
Proof.
  intros v i x o H. unfold add_at. rewrite (at_some _ _ _ _ H). cbn [obind]. eexists. split; [reflexivity|]. apply set_nth_replaced. apply nth_error_Some. congruence.
Qed.

(** ** C121: which entries change, and that nothing else happens *)
Theorem c121_mismatch : forall v value loc locs, length v <> length locs -> distribute v value loc locs = Ret (RErr, v).
Proof. intros v value loc locs H. unfold distribute. destruct (Nat.eqb_spec (length v) (length locs)); [congruence|reflexivity]. Qed.
Theorem c121_empty : forall value loc, distribute [] value loc [] = Ret (ROk tt, []).
Proof. reflexivity. Qed.
Theorem c121_ends : forall v value loc locs a0 a9 o0 o9, length v = length locs -> Forall number locs -> number loc ->
  nth_error locs 0 = Some a0 -> nth_error locs (length locs - 1) = Some a9 -> nth_error v 0 = Some o0 -> nth_error v (length locs - 1) = Some o9 ->
  (le fcmp loc a0 -> exists w, distribute v value loc locs = Ret (ROk tt, w) /\ replaced v 0 (gadd o0 value) w) /\
  (lt fcmp a0 loc -> le fcmp a9 loc -> exists w, distribute v value loc locs = Ret (ROk tt, w) /\ replaced v (length locs - 1) (gadd o9 value) w).
Proof.
  intros v value loc locs a0 a9 o0 o9 L NL Nl A0 A9 O0 O9.
  assert (LV : 0 < length locs) by (destruct locs; [discriminate A0|cbn; lia]).
  pose proof (P_at number locs NL _ _ A0) as N0. pose proof (P_at number locs NL _ _ A9) as N9.
  unfold distribute. rewrite L, Nat.eqb_refl. cbn [negb]. destruct (Nat.eqb_spec (length locs) 0); [lia|]. rewrite (at_some _ _ _ _ A0). cbn [obind]. split.
  - intro G. assert (F : o_le fcmp loc a0 = true).
    { unfold le in G. unfold o_le. destruct G as [-> | ->]; reflexivity. }
    rewrite F. destruct (add_at_replaced v 0 value o0 O0) as (w & -> & R). cbn [obind]. eauto.
  - intros G G9. assert (F : o_le fcmp loc a0 = false).
    { apply not_true_is_false. intro Q. apply (proj1 (lt_not_le fcmp number f_order a0 loc N0 Nl) G). unfold o_le in Q. unfold le. destruct (fcmp loc a0) as [[]|]; auto; discriminate Q. }
    rewrite F, (at_some _ _ _ _ A9). cbn [obind].
    assert (F9 : o_ge fcmp loc a9 = true) by (apply (o_ge_iff fcmp number f_order loc a9 Nl N9); exact G9). rewrite F9.
    destruct (add_at_replaced v _ value o9 O9) as (w & -> & R). cbn [obind]. eauto.
Qed.
(** strictly between: the two neighbours of the location *)
Theorem c121_inside : forall v value loc locs a0 a9, length v = length locs -> Forall number locs -> strictly_sorted fcmp locs -> number loc ->
  nth_error locs 0 = Some a0 -> nth_error locs (length locs - 1) = Some a9 -> lt fcmp a0 loc -> lt fcmp loc a9 ->
  exists i a b oi oj w u, nth_error locs i = Some a /\ nth_error locs (i + 1) = Some b /\ le fcmp a loc /\ lt fcmp loc b /\ nth_error v i = Some oi /\ nth_error v (i + 1) = Some oj /\
    distribute v value loc locs = Ret (ROk tt, w) /\
    replaced v i (gadd oi (gmul (gsub (gof_Z 1) (gdiv (gsub loc a) (gsub b a))) value)) u /\
    replaced u (i + 1) (gadd oj (gmul (gdiv (gsub loc a) (gsub b a)) value)) w.
Proof.
  intros v value loc locs a0 a9 L NL SL Nl A0 A9 G0 G9. pose proof (strict_sorted fcmp locs SL) as SV.
  pose proof (P_at number locs NL _ _ A0) as N0. pose proof (P_at number locs NL _ _ A9) as N9. assert (N : locs <> []) by (intros ->; discriminate A0).
  destruct (bs_total fcmp locs loc N) as (i & Ei & Li). pose proof (bs_place fcmp number f_order locs loc NL Nl SV SL i Ei) as (_ & _ & _ & PL).
  destruct (PL a0 a9 A0 A9 (lt_le fcmp _ _ G0) G9) as (a & b & Ha & Hb & LA & LB).
  assert (Li1 : i + 1 < length locs) by (apply nth_error_Some; congruence).
  destruct (at_lt _ v i ltac:(lia)) as (oi & Oi & _). destruct (at_lt _ v (i + 1) ltac:(lia)) as (oj & Oj & _).
  set (rw := gdiv (gsub loc a) (gsub b a)).
  destruct (add_at_replaced v i (gmul (gsub (gof_Z 1) rw) value) oi Oi) as (u & Eu & Ru).
  assert (Oj' : nth_error u (i + 1) = Some oj) by (destruct Ru as (_ & _ & _ & Q); rewrite Q by lia; exact Oj).
  destruct (add_at_replaced u (i + 1) (gmul rw value) oj Oj') as (w & Ew & Rw).
  exists i, a, b, oi, oj, w, u. split; [exact Ha|]. split; [exact Hb|]. split; [exact LA|]. split; [exact LB|]. split; [exact Oi|]. split; [exact Oj|]. split; [|split; [exact Ru|exact Rw]].
  unfold distribute. rewrite L, Nat.eqb_refl. cbn [negb]. destruct (Nat.eqb_spec (length locs) 0); [lia|]. rewrite (at_some _ _ _ _ A0). cbn [obind].
  assert (F : o_le fcmp loc a0 = false).
  { apply not_true_is_false. intro Q. apply (proj1 (lt_not_le fcmp number f_order a0 loc N0 Nl) G0). unfold o_le in Q. unfold le. destruct (fcmp loc a0) as [[]|]; auto; discriminate Q. }
  rewrite F, (at_some _ _ _ _ A9). cbn [obind].
  assert (F9 : o_ge fcmp loc a9 = false) by (apply not_true_is_false; rewrite (o_ge_iff fcmp number f_order loc a9 Nl N9); intro Z; exact (proj1 (lt_not_le fcmp number f_order loc a9 Nl N9) G9 Z)).
  rewrite F9, Ei. cbn [obind]. rewrite (at_some _ _ _ _ Ha), (at_some _ _ _ _ Hb). cbn [obind]. fold rw. rewrite Eu. cbn [obind]. rewrite Ew. reflexivity.
Qed.
(** whatever the floats (NaN included, unsorted included): no panic from two entries on *)
Theorem c121_answers : forall v value loc locs, length v = length locs -> 2 <= length locs ->
  exists w, distribute v value loc locs = Ret (ROk tt, w) /\ length w = length v.
Proof.
  intros v value loc locs L L2. assert (N : locs <> []) by (intros E; rewrite E in L2; cbn in L2; lia).
  destruct (at_lt _ locs 0 ltac:(lia)) as (a0 & A0 & B0). destruct (at_lt _ locs (length locs - 1) ltac:(lia)) as (a9 & A9 & B9).
  assert (AD : forall u i x, i < length u -> exists w, add_at u i x = Ret w /\ length w = length u).
  { intros u i x Hi. destruct (at_lt _ u i Hi) as (o & O & _). destruct (add_at_replaced u i x o O) as (w & E & R). exists w. split; [exact E|apply R]. }
  unfold distribute. rewrite L, Nat.eqb_refl. cbn [negb]. destruct (Nat.eqb_spec (length locs) 0); [lia|]. rewrite B0, B9. cbn [obind].
  destruct (o_le fcmp loc a0).
  - destruct (AD v 0 value ltac:(lia)) as (w & -> & LW). cbn [obind]. exists w. split; [reflexivity|congruence].
  - destruct (o_ge fcmp loc a9) eqn:G9.
    + destruct (AD v (length locs - 1) value ltac:(lia)) as (w & -> & LW). cbn [obind]. exists w. split; [reflexivity|congruence].
    + destruct (bs_total fcmp locs loc N) as (i & Ei & Li). rewrite Ei. cbn [obind]. pose proof (inside_next locs loc a9 i L2 A9 G9 Ei) as NI.
      destruct (at_lt _ locs i Li) as (a & _ & ->). destruct (at_lt _ locs (i + 1) NI) as (b & _ & ->). cbn [obind].
      set (rw := gdiv (gsub loc a) (gsub b a)). destruct (AD v i (gmul (gsub (gof_Z 1) rw) value) ltac:(lia)) as (u & -> & LU). cbn [obind].
      destruct (AD u (i + 1) (gmul rw value) ltac:(lia)) as (w & -> & LW). cbn [obind]. exists w. split; [reflexivity|congruence].
Qed.
(** REFUTED for a single entry: a NaN location panics *)
Theorem c121_single_refuted : forall o value loc a, is_nan loc = true -> distribute [o] value loc [a] = Panic.
Proof.
  intros o value loc a H. unfold distribute. cbn [length Nat.eqb negb at_ nth_error obind Nat.sub].
  unfold o_le, o_ge. rewrite (nan_left loc a H). rewrite (bs_incomparable f32 fcmp [a] loc ltac:(discriminate)); [reflexivity|].
  intros y [<-|[]]. apply nan_compare. exact H.
Qed.
(** REFUTED for locations that are sorted but repeated: a finite value at a finite
    location turns an entry into NaN *)
Definition poisoned (r : outcome (rresult unit * list f32)) : bool := match r with Ret (ROk _, w) => existsb is_nan w | _ => false end.
Theorem c121_repeated_refuted : sorted fcmp [gof_Z 0 : f32; gof_Z 1; gof_Z 1; gof_Z 2] /\
  poisoned (distribute [gof_Z 0; gof_Z 0; gof_Z 0; gof_Z 0] (gof_Z 1) (gof_Z 1) [gof_Z 0; gof_Z 1; gof_Z 1; gof_Z 2]) = true.
Proof.
  split; [|vm_compute; reflexivity]. intros i j x y Q Hx Hy. assert (j < 4) by (change 4 with (length [gof_Z 0 : f32; gof_Z 1; gof_Z 1; gof_Z 2]); apply nth_error_Some; congruence).
  destruct j as [|[|[|[|j]]]]; try lia; destruct i as [|[|[|i]]]; try lia; cbn [nth_error] in Hx, Hy; un Hx; un Hy; unfold le; vm_compute; auto.
Qed.

(** ** C122: the shares, and that the total is kept up to rounding *)
Lemma tn149 : (/ 2 ^ 149 = 2 * tiny)%R.
Proof. unfold tiny. change 2%R with (bpow radix2 1) at 2. rewrite <- bpow_plus. change (1 + -150)%Z with (Z.opp (Z.of_nat 149)). rewrite bpow_opp. rewrite <- IZR_Zpower_nat. rewrite pow_IZR. reflexivity. Qed.
Lemma en24 : (/ 2 ^ 24 = e24)%R.
Proof. unfold e24. f_equal. lra. Qed.
(** the share of the left neighbour is value * (b - loc) / (b - a), that of the right one value * (loc - a) / (b - a) *)
Theorem c122_shares : forall a b loc value : f32, finite a -> finite b -> finite loc -> finite value -> (real_of a < real_of b)%R -> (real_of a <= real_of loc <= real_of b)%R ->
  (real_of b - real_of a <= 2 ^ 100)%R -> (Rabs (real_of value) <= 2 ^ 100)%R ->
  let right_weight := gdiv (gsub loc a) (gsub b a) in
  let sl := gmul (gsub (gof_Z 1) right_weight) value in let sr := gmul right_weight value in
  let err := (8 * / 2 ^ 24 * Rabs (real_of value) + / 2 ^ 149 * (1 + Rabs (real_of value)))%R in
  finite sl /\ finite sr /\
  (Rabs (real_of sl - real_of value * ((real_of b - real_of loc) / (real_of b - real_of a))) <= err)%R /\
  (Rabs (real_of sr - real_of value * ((real_of loc - real_of a) / (real_of b - real_of a))) <= err)%R /\
  (Rabs (real_of sl + real_of sr - real_of value) <= 4 * / 2 ^ 24 * Rabs (real_of value) + / 2 ^ 149)%R.
Proof.
  intros a b loc value Fa Fb Fx Fv AB X BA HV rw sl sr err. rewrite p100 in *.
  destruct (shares_close a b loc value _ _ _ _ (fin_of a Fa) (fin_of b Fb) (fin_of loc Fx) (fin_of value Fv) AB X BA HV) as (l & r & Fl & Fr & C1 & C2 & C3).
  fold rw in Fl, Fr. fold sl in Fl. fold sr in Fr. split; [exact (proj1 Fl)|]. split; [exact (proj1 Fr)|].
  unfold real_of in *. rewrite (proj2 Fl), (proj2 Fr). unfold err. rewrite en24, tn149 in *. pose proof e24_pos. pose proof (Rabs_pos (B2R value)).
  assert (0 <= e24 * Rabs (B2R value))%R by (apply Rmult_le_pos; lra).
  split; [apply Rle_trans with (1 := C2); lra|]. split; [apply Rle_trans with (1 := C1); lra|]. exact C3.
Qed.
Definition total (v : list f32) : R := fold_right Rplus 0%R (map real_of v).
Lemma total_replaced : forall v i o y w, nth_error v i = Some o -> replaced v i y w -> total w = (total v + (real_of y - real_of o))%R.
Proof.
  induction v as [|x v IH]; intros i o y w H (L1 & L2 & L3 & L4); [cbn in L1; lia|]. destruct w as [|z w]; [discriminate L2|].
  destruct i as [|i]; cbn in H, L3.
  - un H. un L3. unfold total. cbn [map fold_right].
    assert (w = v).
    { cbn in L2. clear - L2 L4. assert (Q : forall k, nth_error w k = nth_error v k) by (intro k; exact (L4 (Datatypes.S k) ltac:(lia))). clear L4. revert v L2 Q.
      induction w as [|u w IH]; intros [|x1 v] L Q; try discriminate L; [reflexivity|]. pose proof (Q 0) as Q0. cbn in Q0. f_equal; [congruence|]. apply IH; [cbn in L; lia|]. intro k. exact (Q (Datatypes.S k)). }
    subst w. lra.
  - pose proof (L4 0 ltac:(lia)) as Q. cbn in Q. un Q. unfold total in *. cbn [map fold_right]. rewrite (IH i o y w H); [lra|].
    cbn in L1, L2. split; [lia|]. split; [lia|]. split; [exact L3|]. intros k Hk. exact (L4 (Datatypes.S k) ltac:(lia)).
Qed.
Lemma replaced_forall : forall (P : f32 -> Prop) v i y w, Forall P v -> replaced v i y w -> P y -> Forall P w.
Proof.
  intros P v i y w F (L1 & L2 & L3 & L4) Y. rewrite Forall_forall in *. intros x Hx. apply In_nth_error in Hx. destruct Hx as (k & Hk).
  destruct (Nat.eq_dec k i) as [->|Q]; [congruence|]. rewrite L4 in Hk by exact Q. eauto using nth_error_In.
Qed.
Theorem c122_conserved : forall v value loc locs B, length v = length locs -> v <> [] -> Forall finite locs -> strictly_sorted fcmp locs ->
  (forall i a b, nth_error locs i = Some a -> nth_error locs (i + 1) = Some b -> (real_of b - real_of a <= 2 ^ 100)%R) ->
  Forall (fun o => finite o /\ (Rabs (real_of o) <= B)%R) v -> (B <= 2 ^ 100)%R -> finite value -> (Rabs (real_of value) <= 2 ^ 100)%R -> finite loc ->
  exists w, distribute v value loc locs = Ret (ROk tt, w) /\ Forall finite w /\
    (Rabs (total w - (total v + real_of value)) <= / 2 ^ 24 * (2 * B + 8 * Rabs (real_of value)) + / 2 ^ 147)%R.
Proof.
  intros v value loc locs B L NV FL SL SP FV HB Fv HV Fx. pose proof (finite_numbers locs FL) as NL. pose proof (finite_number loc Fx) as Nl. rewrite p100 in *.
  assert (LV : 0 < length locs) by (destruct v; [congruence|rewrite <- L; cbn; lia]).
  destruct (at_lt _ locs 0 ltac:(lia)) as (a0 & A0 & _). destruct (at_lt _ locs (length locs - 1) ltac:(lia)) as (a9 & A9 & _).
  destruct (at_lt _ v 0 ltac:(lia)) as (o0 & O0 & _). destruct (at_lt _ v (length locs - 1) ltac:(lia)) as (o9 & O9 & _).
  pose proof (P_at number locs NL _ _ A0) as N0. pose proof (P_at number locs NL _ _ A9) as N9.
  pose proof two100_pos as T0. pose proof e24_pos as E0. pose proof tiny_pos as N1. pose proof tiny_small as N2. pose proof (Rabs_pos (real_of value)) as V0.
  assert (TN : (/ 2 ^ 147 = 8 * tiny)%R).
  { replace (/ 2 ^ 147)%R with (4 * / 2 ^ 149)%R; [rewrite tn149; ring|]. replace (2 ^ 149)%R with (4 * 2 ^ 147)%R; [field; apply pow_nonzero; lra|]. change 149 with (Datatypes.S (Datatypes.S 147)). rewrite <- !tech_pow_Rmult. ring. }
  rewrite TN, en24.
  assert (FO : forall i o, nth_error v i = Some o -> finite o /\ (Rabs (real_of o) <= B)%R) by (intros i o H; rewrite Forall_forall in FV; eauto using nth_error_In).
  assert (FF : Forall finite v) by (eapply Forall_impl; [|exact FV]; intros o H; apply H).
  assert (B0 : (0 <= B)%R) by (destruct (FO _ _ O0) as [_ Q]; apply Rle_trans with (2 := Q); apply Rabs_pos).
  assert (ADD : forall (o s : f32) r, fin 24 128 s r -> finite o -> (Rabs (real_of o) <= B -> Rabs r <= 2 * two100 -> finite (gadd o s) /\ Rabs (real_of (gadd o s) - (real_of o + r)) <= e24 * (B + Rabs r))%R).
  { intros o s r Fs Fo Bo Br. pose proof (Rabs_triang (real_of o) r) as TR.
    destruct (add_err o s _ _ (fin_of o Fo) Fs) as (y & d & Fy & D & Ey); [apply two100_127; lra|]. split; [exact (proj1 Fy)|]. unfold real_of at 1. rewrite (proj2 Fy), Ey.
    replace ((real_of o + r) * (1 + d) - (real_of o + r))%R with (d * (real_of o + r))%R by ring. rewrite Rabs_mult. apply Rmult_le_compat; try apply Rabs_pos; lra. }
  assert (EV : (0 <= e24 * Rabs (real_of value))%R) by (apply Rmult_le_pos; lra). assert (EB : (0 <= e24 * B)%R) by (apply Rmult_le_pos; lra).
  destruct (c121_ends v value loc locs a0 a9 o0 o9 L NL Nl A0 A9 O0 O9) as [C1 C2].
  destruct (le_or_lt fcmp number f_order loc a0 Nl N0) as [G|G].
  - destruct (C1 G) as (w & E & R). exists w. split; [exact E|]. destruct (FO _ _ O0) as [Fo Bo]. destruct (ADD o0 value _ (fin_of value Fv) Fo Bo ltac:(lra)) as [FA BA].
    split; [exact (replaced_forall finite v _ _ w FF R FA)|]. rewrite (total_replaced v 0 o0 _ w O0 R).
    replace (total v + (real_of (gadd o0 value) - real_of o0) - (total v + real_of value))%R with (real_of (gadd o0 value) - (real_of o0 + real_of value))%R by ring. lra.
  - destruct (le_or_lt fcmp number f_order a9 loc N9 Nl) as [G9|G9].
    + destruct (C2 G G9) as (w & E & R). exists w. split; [exact E|]. destruct (FO _ _ O9) as [Fo Bo]. destruct (ADD o9 value _ (fin_of value Fv) Fo Bo ltac:(lra)) as [FA BA].
      split; [exact (replaced_forall finite v _ _ w FF R FA)|]. rewrite (total_replaced v _ o9 _ w O9 R).
      replace (total v + (real_of (gadd o9 value) - real_of o9) - (total v + real_of value))%R with (real_of (gadd o9 value) - (real_of o9 + real_of value))%R by ring. lra.
    + destruct (c121_inside v value loc locs a0 a9 L NL SL Nl A0 A9 G G9) as (i & a & b & oi & oj & w & u & Ha & Hb & LA & LB & Oi & Oj & E & R1 & R2).
      exists w. split; [exact E|]. assert (Fa : finite a) by (rewrite Forall_forall in FL; eauto using nth_error_In). assert (Fb : finite b) by (rewrite Forall_forall in FL; eauto using nth_error_In).
      apply fle_finite in LA; try assumption. apply flt_finite in LB; try assumption.
      set (rw := gdiv (gsub loc a) (gsub b a)) in *.
      destruct (shares_close a b loc value _ _ _ _ (fin_of a Fa) (fin_of b Fb) (fin_of loc Fx) (fin_of value Fv)) as (sl & sr & Fl & Fr & S1 & S2 & S3);
        [unfold real_of in *; lra|unfold real_of in *; lra|exact (SP i a b Ha Hb)|exact HV|]. fold rw in Fl, Fr.
      assert (W1 : forall c d, (0 <= c -> 0 < d -> c <= d -> Rabs (real_of value * (c / d)) <= Rabs (real_of value))%R).
      { intros c d H1 H2 H3. rewrite Rabs_mult. rewrite <- (Rmult_1_r (Rabs (real_of value))) at 2. apply Rmult_le_compat_l; [lra|]. rewrite Rabs_pos_eq.
        - apply Rmult_le_reg_r with d; [lra|]. unfold Rdiv. rewrite Rmult_assoc, Rinv_l by lra. lra.
        - apply Rmult_le_pos; [lra|]. left. apply Rinv_0_lt_compat. lra. }
      assert (AB : (real_of a < real_of b)%R) by (unfold real_of in *; lra).
      pose proof (W1 (real_of loc - real_of a)%R (real_of b - real_of a)%R ltac:(unfold real_of in *; lra) ltac:(lra) ltac:(unfold real_of in *; lra)) as WR.
      pose proof (W1 (real_of b - real_of loc)%R (real_of b - real_of a)%R ltac:(unfold real_of in *; lra) ltac:(lra) ltac:(unfold real_of in *; lra)) as WL.
      (* the shares are at most a little more than the value *)
      assert (TV : (tiny * Rabs (real_of value) <= / 1000 * e24 * Rabs (real_of value))%R).
      { apply Rmult_le_compat_r; [lra|]. unfold tiny. apply Rle_trans with (bpow radix2 (-40)); [apply bpow_le; lia|]. change (bpow radix2 (-40)) with (/ 1099511627776)%R. unfold e24. lra. }
      assert (BL : (Rabs sl <= 1.001 * Rabs (real_of value) + 2 * tiny)%R).
      { replace sl with ((sl - real_of value * ((real_of b - real_of loc) / (real_of b - real_of a))) + real_of value * ((real_of b - real_of loc) / (real_of b - real_of a)))%R by ring.
        apply Rle_trans with (1 := Rabs_triang _ _). unfold real_of in *. unfold e24 in *. lra. }
      assert (BR : (Rabs sr <= 1.001 * Rabs (real_of value) + 2 * tiny)%R).
      { replace sr with ((sr - real_of value * ((real_of loc - real_of a) / (real_of b - real_of a))) + real_of value * ((real_of loc - real_of a) / (real_of b - real_of a)))%R by ring.
        apply Rle_trans with (1 := Rabs_triang _ _). unfold real_of in *. unfold e24 in *. lra. }
      destruct (FO _ _ Oi) as [Foi Boi]. destruct (FO _ _ Oj) as [Foj Boj].
      destruct (ADD oi _ sl Fl Foi Boi ltac:(lra)) as [FA1 BA1]. destruct (ADD oj _ sr Fr Foj Boj ltac:(lra)) as [FA2 BA2].
      assert (Oj' : nth_error u (i + 1) = Some oj) by (destruct R1 as (_ & _ & _ & Q); rewrite Q by lia; exact Oj).
      split; [exact (replaced_forall finite u _ _ w (replaced_forall finite v _ _ u FF R1 FA1) R2 FA2)|].
      rewrite (total_replaced u _ oj _ w Oj' R2), (total_replaced v _ oi _ u Oi R1).
      set (yl := gadd oi (gmul (gsub (gof_Z 1) rw) value)) in *. set (yr := gadd oj (gmul rw value)) in *.
      replace (total v + (real_of yl - real_of oi) + (real_of yr - real_of oj) - (total v + real_of value))%R
        with ((real_of yl - (real_of oi + sl)) + (real_of yr - (real_of oj + sr)) + (sl + sr - real_of value))%R by ring.
      apply Rle_trans with (1 := Rabs_triang _ _). pose proof (Rabs_triang (real_of yl - (real_of oi + sl)) (real_of yr - (real_of oj + sr))) as TR.
      fold (real_of value) in S3.
      assert (X1 : (e24 * (B + Rabs sl) <= e24 * (B + (1.001 * Rabs (real_of value) + 2 * tiny)))%R) by (apply Rmult_le_compat_l; lra).
      assert (X2 : (e24 * (B + Rabs sr) <= e24 * (B + (1.001 * Rabs (real_of value) + 2 * tiny)))%R) by (apply Rmult_le_compat_l; lra).
      assert (X3 : (e24 * tiny <= tiny)%R) by (rewrite <- (Rmult_1_l tiny) at 2; apply Rmult_le_compat_r; [lra|unfold e24; lra]).
      lra.
Qed.
(** 4 at location 1/2 over the grid 0, 1, 2 with entries 1, 3, 2: 3, 5, 2 *)
Definition spreads (r : outcome (rresult unit * list f32)) (w : list f32) : bool :=
  match r with Ret (ROk _, u) => (length u =? length w) && forallb (fun p => geq (fst p) (snd p)) (combine u w) | _ => false end.
Example c121_hypotheses_met : Forall number ex_d /\ strictly_sorted fcmp ex_d /\ lt fcmp (gof_Z 0) half /\ lt fcmp half (gof_Z 2) /\
  spreads (distribute ex_v (gof_Z 4) half ex_d) [gof_Z 3; gof_Z 5; gof_Z 2] = true /\ spreads (distribute ex_v (gof_Z 4) (gof_Z 2) ex_d) [gof_Z 1; gof_Z 3; gof_Z 6] = true.
Proof.
  split; [apply finite_numbers; apply ex_gentle|]. split; [apply ex_gentle|]. split; [vm_compute; reflexivity|]. split; [vm_compute; reflexivity|]. split; vm_compute; reflexivity.
Qed.
Example c122_hypotheses_met : Forall finite ex_d /\ strictly_sorted fcmp ex_d /\ (forall i a b, nth_error ex_d i = Some a -> nth_error ex_d (i + 1) = Some b -> (real_of b - real_of a <= 2 ^ 100)%R) /\
  Forall (fun o => finite o /\ (Rabs (real_of o) <= 4)%R) ex_v /\ (4 <= 2 ^ 100)%R /\ finite (gof_Z 4) /\ finite half.
Proof.
  pose proof ex_gentle as (A & B & C & D & E & F). split; [exact B|]. split; [exact C|]. split; [|split; [exact D|split; [exact E|split; [reflexivity|reflexivity]]]].
  intros i a b Ha Hb. assert (i + 1 < 3) by (change 3 with (length ex_d); apply nth_error_Some; congruence).
  destruct (at_lt _ ex_v i ltac:(cbn; lia)) as (u & Hu & _). destruct (at_lt _ ex_v (i + 1) ltac:(cbn; lia)) as (w & Hw & _). exact (proj1 (F i a b u w Ha Hb Hu Hw)).
Qed.
Print Assumptions c121_mismatch.
Print Assumptions c121_empty.
Print Assumptions c121_ends.
Print Assumptions c121_inside.
Print Assumptions c121_answers.
Print Assumptions c121_single_refuted.
Print Assumptions c121_repeated_refuted.
Print Assumptions c122_shares.
Print Assumptions c122_conserved.
