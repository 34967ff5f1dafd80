(** QVolProofs.v -- lemmas about volatility surfaces. *)
From Coq Require Import ZArith Arith List Bool Lia Reals Lra.
From Flocq Require Import Core IEEE754.BinarySingleNaN.
From Verif Require Import Base FloatModel FloatFacts KrxModel QDateModel QFindModel QFindSpec QFindProofs QFindProps QInterpModel QInterpSpec QInterpProofs QFloatErr QLinProofs QLinProps QBilinProps
  QDivModel QCurveModel QFutModel QOptProofs QVolModel QVolSpec QCurveSpec.
Import ListNotations.
Open Scope R_scope.

(** ** piecewise straight functions *)
Definition rising (k : list (R * R)) : Prop := steps (fun a b => fst a < fst b) k.
Lemma rising_tl : forall p k, rising (p :: k) -> rising k.
Proof. intros p k H i a b Ha Hb. exact (H (Datatypes.S i) a b Ha Hb). Qed.
Lemma rising_first : forall k a u i b w, rising ((a, u) :: k) -> nth_error ((a, u) :: k) i = Some (b, w) -> a <= b /\ ((0 < i)%nat -> a < b).
Proof.
  induction k as [|[c v] k IH]; intros a u i b w H E.
  - destruct i as [|i]; [injection E as <- <-; split; [lra|lia]|destruct i; discriminate E].
  - destruct i as [|i]; [injection E as <- <-; split; [lra|lia]|]. pose proof (H 0%nat (a, u) (c, v) eq_refl eq_refl) as S. cbn [fst] in S.
    destruct (IH c v i b w (rising_tl _ _ H) E) as [I _]. split; intros; lra.
Qed.
Lemma onward_inside : forall k a u x i b w c v, rising ((a, u) :: k) -> nth_error ((a, u) :: k) i = Some (b, w) -> nth_error ((a, u) :: k) (i + 1) = Some (c, v) -> b <= x < c ->
  onward a u k x = w + (v - w) / (c - b) * (x - b).
Proof.
  induction k as [|[d y] k IH]; intros a u x i b w c v H E1 E2 X; [destruct i as [|[|i]]; discriminate E2|].
  cbn [onward]. destruct i as [|i].
  - injection E1 as <- <-. injection E2 as <- <-. destruct (Rlt_dec x d); [reflexivity|lra].
  - cbn [nth_error Nat.add] in E1, E2. destruct (rising_first k d y i b w (rising_tl _ _ H) E1) as [L _]. destruct (Rlt_dec x d); [lra|].
    exact (IH d y x i b w c v (rising_tl _ _ H) E1 E2 X).
Qed.
Lemma onward_high : forall k a u x b w, rising ((a, u) :: k) -> nth_error ((a, u) :: k) (length k) = Some (b, w) -> b <= x -> onward a u k x = w.
Proof.
  induction k as [|[d y] k IH]; intros a u x b w H E X; [cbn in E; injection E as <- <-; reflexivity|].
  cbn [onward]. cbn [length nth_error] in E. destruct (rising_first k d y (length k) b w (rising_tl _ _ H) E) as [L _]. destruct (Rlt_dec x d); [lra|].
  exact (IH d y x b w (rising_tl _ _ H) E X).
Qed.
Lemma piecewise_inside : forall k x i b w c v, rising k -> nth_error k i = Some (b, w) -> nth_error k (i + 1) = Some (c, v) -> b <= x < c -> piecewise k x = w + (v - w) / (c - b) * (x - b).
Proof.
  intros k x i b w c v H E1 E2 X. destruct k as [|[a u] k]; [destruct i; discriminate E1|]. cbn [piecewise].
  destruct (rising_first k a u i b w H E1) as [L _]. destruct (Rlt_dec x a); [lra|]. exact (onward_inside k a u x i b w c v H E1 E2 X).
Qed.
Lemma piecewise_low : forall k x a u, nth_error k 0 = Some (a, u) -> x < a -> piecewise k x = u.
Proof. intros k x a u E X. destruct k as [|p k]; [discriminate E|]. cbn in E. injection E as ->. cbn [piecewise]. destruct (Rlt_dec x a); [reflexivity|lra]. Qed.
Lemma piecewise_high : forall k x b w, rising k -> nth_error k (length k - 1) = Some (b, w) -> b <= x -> piecewise k x = w.
Proof.
  intros k x b w H E X. destruct k as [|[a u] k]; [discriminate E|]. cbn [length] in E. replace (Datatypes.S (length k) - 1)%nat with (length k) in E by lia. cbn [piecewise].
  destruct (rising_first k a u (length k) b w H E) as [L _]. destruct (Rlt_dec x a); [lra|]. exact (onward_high k a u x b w H E X).
Qed.
(** where a number lies *)
Lemma place : forall k x, rising k -> k <> [] -> (exists a u, nth_error k 0 = Some (a, u) /\ x < a) \/ (exists b w, nth_error k (length k - 1) = Some (b, w) /\ b <= x) \/
  (exists i b w c v, nth_error k i = Some (b, w) /\ nth_error k (i + 1) = Some (c, v) /\ b <= x < c).
Proof.
  induction k as [|[a u] k IH]; intros x H N; [congruence|]. destruct (Rlt_dec x a) as [X|X]; [left; exists a, u; split; [reflexivity|exact X]|right].
  destruct k as [|[b w] k]; [left; exists a, u; split; [reflexivity|lra]|].
  destruct (Rlt_dec x b) as [Y|Y]; [right; exists 0%nat, a, u, b, w; split; [reflexivity|]; split; [reflexivity|lra]|].
  destruct (IH x (rising_tl _ _ H) ltac:(discriminate)) as [(c & v & E & Z)|[(c & v & E & Z)|(i & c & v & d & y & E1 & E2 & Z)]].
  - cbn in E. injection E as <- <-. lra.
  - left. exists c, v. split; [|exact Z]. cbn [length] in *. replace (Datatypes.S (Datatypes.S (length k)) - 1)%nat with (Datatypes.S (length k)) by lia.
    replace (Datatypes.S (length k) - 1)%nat with (length k) in E by lia. exact E.
  - right. exists (Datatypes.S i), c, v, d, y. split; [exact E1|]. split; [exact E2|exact Z].
Qed.
(** the knots one above the other *)
Definition over (R' : R -> R -> Prop) (k k' : list (R * R)) : Prop := Forall2 (fun p q => fst p = fst q /\ R' (snd p) (snd q)) k k'.
Lemma over_nth : forall Q k k' i p, over Q k k' -> nth_error k i = Some p -> exists q, nth_error k' i = Some q /\ fst p = fst q /\ Q (snd p) (snd q).
Proof.
  intros Q k k' i p H. revert i. induction H as [|x y k k' H F IH]; intros i E; [destruct i; discriminate E|].
  destruct i as [|i]; [injection E as <-; exists y; split; [reflexivity|exact H]|exact (IH i E)].
Qed.
Lemma over_length : forall Q k k', over Q k k' -> length k = length k'.
Proof. intros Q k k' H. exact (F2_length _ _ _ _ _ H). Qed.
Lemma over_rising : forall Q k k', over Q k k' -> rising k -> rising k'.
Proof.
  intros Q k k' H R i a b Ha Hb. assert (La : exists p, nth_error k i = Some p) by (destruct (nth_error k i) eqn:E; [eauto|]; apply nth_error_None in E; pose proof (over_length _ _ _ H) as L; assert (i < length k')%nat by (apply nth_error_Some; congruence); lia).
  assert (Lb : exists p, nth_error k (i + 1) = Some p) by (destruct (nth_error k (i + 1)) eqn:E; [eauto|]; apply nth_error_None in E; pose proof (over_length _ _ _ H) as L; assert (i + 1 < length k')%nat by (apply nth_error_Some; congruence); lia).
  destruct La as [p Hp]. destruct Lb as [q Hq]. destruct (over_nth _ _ _ _ _ H Hp) as (p' & P1 & P2 & _). destruct (over_nth _ _ _ _ _ H Hq) as (q' & Q1 & Q2 & _).
  rewrite Ha in P1. rewrite Hb in Q1. injection P1 as <-. injection Q1 as <-. rewrite <- P2, <- Q2. exact (R i p q Hp Hq).
Qed.
(** a value between those of two neighbours, with the same weights above and below *)
Lemma piecewise_over : forall (Q : R -> R -> Prop) k k' x, rising k -> k <> [] -> over Q k k' ->
  (forall u u' w w' s, Q u u' -> Q w w' -> 0 <= s <= 1 -> Q (u + s * (w - u)) (u' + s * (w' - u'))) -> Q (piecewise k x) (piecewise k' x).
Proof.
  intros Q k k' x H N O C. pose proof (over_rising _ _ _ O H) as H'. destruct (place k x H N) as [(a & u & E & X)|[(b & w & E & X)|(i & b & w & c & v & E1 & E2 & X)]].
  - destruct (over_nth _ _ _ _ _ O E) as ((a' & u') & E' & A & U). cbn [fst snd] in A, U. subst a'. rewrite (piecewise_low k x a u E X), (piecewise_low k' x a u' E' X). exact U.
  - destruct (over_nth _ _ _ _ _ O E) as ((b' & w') & E' & A & U). cbn [fst snd] in A, U. subst b'. rewrite (over_length _ _ _ O) in E'.
    rewrite (piecewise_high k x b w H E X), (piecewise_high k' x b w' H' E' X). exact U.
  - destruct (over_nth _ _ _ _ _ O E1) as ((b' & w') & E1' & A1 & U1). destruct (over_nth _ _ _ _ _ O E2) as ((c' & v') & E2' & A2 & U2). cbn [fst snd] in A1, A2, U1, U2. subst b' c'.
    rewrite (piecewise_inside k x i b w c v H E1 E2 X), (piecewise_inside k' x i b w' c v' H' E1' E2' X).
    assert (L : 0 < c - b) by lra. assert (I : 0 < / (c - b)) by (apply Rinv_0_lt_compat; exact L).
    replace (w + (v - w) / (c - b) * (x - b)) with (w + (x - b) / (c - b) * (v - w)) by (field; lra). replace (w' + (v' - w') / (c - b) * (x - b)) with (w' + (x - b) / (c - b) * (v' - w')) by (field; lra).
    apply C; [exact U1|exact U2|]. split; [apply Rmult_le_pos; lra|]. apply Rmult_le_reg_r with (c - b); [exact L|]. unfold Rdiv. rewrite Rmult_assoc, Rinv_l by lra. lra.
Qed.
Lemma over_refl : forall (Q : R -> R -> Prop) k, Forall (fun p => Q (snd p) (snd p)) k -> over Q k k.
Proof. intros Q k H. induction H as [|p k H F IH]; constructor; [split; [reflexivity|exact H]|exact IH]. Qed.
(** between the least and the greatest value *)
Lemma piecewise_between : forall k x lo hi, rising k -> k <> [] -> Forall (fun p => lo <= snd p <= hi) k -> lo <= piecewise k x <= hi.
Proof.
  intros k x lo hi H N F. apply (piecewise_over (fun a _ => lo <= a <= hi) k k x H N).
  - apply over_refl. exact F.
  - intros u u' w w' s U W S. replace (u + s * (w - u)) with ((1 - s) * u + s * w) by ring.
    assert ((1 - s) * lo <= (1 - s) * u <= (1 - s) * hi) by (split; apply Rmult_le_compat_l; lra). assert (s * lo <= s * w <= s * hi) by (split; apply Rmult_le_compat_l; lra). lra.
Qed.
Lemma piecewise_close : forall k k' x E, rising k -> k <> [] -> over (fun a b => Rabs (a - b) <= E) k k' -> Rabs (piecewise k x - piecewise k' x) <= E.
Proof.
  intros k k' x E H N O. apply (piecewise_over (fun a b => Rabs (a - b) <= E) k k' x H N O). intros u u' w w' s U W S.
  apply Rabs_le. apply Rabs_le_inv in U. apply Rabs_le_inv in W. replace (u + s * (w - u) - (u' + s * (w' - u'))) with ((1 - s) * (u - u') + s * (w - w')) by ring.
  assert ((1 - s) * - E <= (1 - s) * (u - u') <= (1 - s) * E) by (split; apply Rmult_le_compat_l; lra). assert (s * - E <= s * (w - w') <= s * E) by (split; apply Rmult_le_compat_l; lra). lra.
Qed.
Lemma piecewise_shift : forall k k' x c, rising k -> k <> [] -> over (fun a b => b = a + c) k k' -> piecewise k' x = piecewise k x + c.
Proof. intros k k' x c H N O. apply (piecewise_over (fun a b => b = a + c) k k' x H N O). intros u u' w w' s -> -> _. ring. Qed.

(** ** rows *)
Definition points (d v : list f32) : list (R * R) := combine (map value d) (map value v).
Lemma nth_combine : forall A B (l : list A) (m : list B) i x y, nth_error l i = Some x -> nth_error m i = Some y -> nth_error (combine l m) i = Some (x, y).
Proof.
  intros A B. induction l as [|a l IH]; intros m i x y E F; [destruct i; discriminate E|]. destruct m as [|b m]; [destruct i; discriminate F|].
  destruct i as [|i]; [cbn in *; congruence|exact (IH m i x y E F)].
Qed.
Lemma nth_combine_inv : forall A B (l : list A) (m : list B) i p, nth_error (combine l m) i = Some p -> nth_error l i = Some (fst p) /\ nth_error m i = Some (snd p).
Proof.
  intros A B. induction l as [|a l IH]; intros m i p E; [destruct i; discriminate E|]. destruct m as [|b m]; [destruct i; discriminate E|].
  destruct i as [|i]; [cbn in *; injection E as <-; auto|exact (IH m i p E)].
Qed.
Lemma points_nth : forall d v i a u, nth_error d i = Some a -> nth_error v i = Some u -> nth_error (points d v) i = Some (value a, value u).
Proof. intros d v i a u A U. apply nth_combine; [exact (map_nth_error value i d A)|exact (map_nth_error value i v U)]. Qed.
Lemma nth_map_inv : forall A B (f : A -> B) l i y, nth_error (map f l) i = Some y -> exists x, nth_error l i = Some x /\ y = f x.
Proof. intros A B f. induction l as [|a l IH]; intros i y E; [destruct i; discriminate E|]. destruct i as [|i]; [cbn in E; injection E as <-; exists a; auto|exact (IH i y E)]. Qed.
Lemma points_length : forall d v, length d = length v -> length (points d v) = length d.
Proof. intros d v L. unfold points. rewrite combine_length, !map_length. lia. Qed.
Lemma points_rising : forall d v, Forall finite d -> strictly_sorted fcmp d -> rising (points d v).
Proof.
  intros d v F S i p q P Q. apply nth_combine_inv in P. apply nth_combine_inv in Q. destruct P as [P _]. destruct Q as [Q _].
  apply nth_map_inv in P. apply nth_map_inv in Q. destruct P as (a & A & ->). destruct Q as (b & B & ->). rewrite Forall_forall in F.
  apply (flt_finite a b); [exact (F a (nth_error_In _ _ A))|exact (F b (nth_error_In _ _ B))|]. exact (S i (i + 1)%nat a b ltac:(lia) A B).
Qed.
Lemma p60_pos : 0 < 2 ^ 60.
Proof. lra. Qed.
Lemma small_term : forall g, 0 <= g <= 2 ^ 61 -> / 2 ^ 149 * (1 + g) <= / 2 ^ 80.
Proof.
  intros g G. apply Rle_trans with (/ 2 ^ 149 * 2 ^ 62); [apply Rmult_le_compat_l; [left; apply Rinv_0_lt_compat; lra|lra]|]. 
  apply Rmult_le_reg_l with (2 ^ 149); [lra|]. rewrite <- Rmult_assoc, Rinv_r by lra. rewrite Rmult_1_l.
  replace (2 ^ 149) with (2 ^ 69 * 2 ^ 80) by (rewrite <- pow_add; reflexivity). rewrite Rmult_assoc, Rinv_r by lra. lra.
Qed.
Lemma sorted_ends : forall d, Forall finite d -> strictly_sorted fcmp d -> forall i a d9, nth_error d i = Some a -> nth_error d (length d - 1) = Some d9 -> value a <= value d9.
Proof.
  intros d F S i a d9 A D. assert (L : (i < length d)%nat) by (apply nth_error_Some; congruence). destruct (Nat.eq_dec i (length d - 1)) as [->|N]; [rewrite A in D; injection D as ->; lra|].
  pose proof (S i (length d - 1)%nat a d9 ltac:(lia) A D) as H. rewrite Forall_forall in F. apply flt_finite in H; [|exact (F a (nth_error_In _ _ A))|exact (F d9 (nth_error_In _ _ D))]. apply Rlt_le. exact H.
Qed.
Lemma row_close : forall d v M l x, gentle d v M -> (2 <= length d)%nat -> Forall (fun a => 0 <= value a <= 2 ^ 61) d -> linear_new d v XFlat true = Ret (ROk l) -> finite x ->
  exists y, linear_interpolate l x = Ret (ROk y) /\ finite y /\ Rabs (value y - piecewise (points d v) (value x)) <= 12 * / 2 ^ 24 * M + / 2 ^ 80.
Proof.
  intros d v M l x G L2 W E Fx. pose proof G as (L & FD & SD & FV & _).
  destruct (at_lt _ d 0%nat ltac:(lia)) as (d0 & H0 & _). destruct (at_lt _ d 1%nat ltac:(lia)) as (d1 & H1 & _). destruct (at_lt _ d (length d - 2)%nat ltac:(lia)) as (d8 & H8 & _). destruct (at_lt _ d (length d - 1)%nat ltac:(lia)) as (d9 & H9 & _).
  destruct (at_lt _ v 0%nat ltac:(lia)) as (v0 & V0 & _). destruct (at_lt _ v 1%nat ltac:(lia)) as (v1 & V1 & _). destruct (at_lt _ v (length d - 2)%nat ltac:(lia)) as (v8 & V8 & _). destruct (at_lt _ v (length d - 1)%nat ltac:(lia)) as (v9 & V9 & _).
  assert (FI : forall i a, nth_error d i = Some a -> finite a) by (intros i a A; rewrite Forall_forall in FD; eauto using nth_error_In).
  assert (FW : forall i u, nth_error v i = Some u -> finite u /\ Rabs (value u) <= M) by (intros i u A; rewrite Forall_forall in FV; exact (FV u (nth_error_In _ _ A))).
  assert (M0 : 0 <= M) by (apply Rle_trans with (2 := proj2 (FW _ _ V0)); apply Rabs_pos).
  assert (P80 : 0 < / 2 ^ 80) by (apply Rinv_0_lt_compat; lra). assert (P24 : 0 <= 12 * / 2 ^ 24 * M) by (apply Rmult_le_pos; [lra|exact M0]).
  pose proof (points_rising d v FD SD) as RI.
  destruct (c117_outside d v XFlat true l x d0 d1 d8 d9 v0 v1 v8 v9 E (finite_numbers d FD) (strict_sorted fcmp d SD) (finite_number x Fx) L2 H0 H1 H8 H9 V0 V1 V8 V9) as [O0 O9].
  destruct (Rlt_or_le (value x) (value d0)) as [X0|X0]; [|destruct (Rlt_or_le (value x) (value d9)) as [X9|X9]].
  - exists v0. split; [apply O0; apply flt_finite; [exact Fx|exact (FI _ _ H0)|exact X0]|]. split; [apply (FW _ _ V0)|].
    rewrite (piecewise_low (points d v) (value x) (value d0) (value v0) (points_nth d v 0 d0 v0 H0 V0) X0). unfold Rminus. rewrite Rplus_opp_r, Rabs_R0. lra.
  - destruct (c114_accurate d v XFlat true M l x d0 d9 G E Fx H0 H9 (conj X0 X9)) as (i & a & b & u & w & y & A & B & U & Ww & XX & EY & FY & CL).
    change real_of with value in *. exists y. split; [exact EY|]. split; [exact FY|]. unfold straight in CL.
    rewrite (piecewise_inside (points d v) (value x) i (value a) (value u) (value b) (value w) RI (points_nth d v i a u A U) (points_nth d v _ b w B Ww) XX).
    rewrite Forall_forall in W. pose proof (W a (nth_error_In _ _ A)) as Wa. pose proof (W b (nth_error_In _ _ B)) as Wb. pose proof (small_term (value b - value a) ltac:(lra)). lra.
  - exists v9. split; [apply O9; apply fle_finite; [exact (FI _ _ H9)|exact Fx|exact X9]|]. split; [apply (FW _ _ V9)|].
    rewrite (piecewise_high (points d v) (value x) (value d9) (value v9) RI); [unfold Rminus; rewrite Rplus_opp_r, Rabs_R0; lra| |exact X9].
    rewrite points_length by exact L. exact (points_nth d v _ d9 v9 H9 V9).
Qed.
Lemma row_knot : forall d v M l i a u, gentle d v M -> (2 <= length d)%nat -> linear_new d v XFlat true = Ret (ROk l) -> nth_error d i = Some a -> nth_error v i = Some u ->
  exists y, linear_interpolate l a = Ret (ROk y) /\ finite y /\ value y = value u.
Proof.
  intros d v M l i a u G L2 E A U. assert (I : (i < length d)%nat) by (apply nth_error_Some; congruence). destruct (Nat.eq_dec i (length d - 1)) as [Q|Q].
  - exact (c115_last d v M l XFlat i a u G E ltac:(discriminate) L2 Q A U).
  - exact (c115_knots d v XFlat true M l i a u G E A U ltac:(lia)).
Qed.
Lemma steps_map : forall A B (f : A -> B) (P : B -> B -> Prop) l, steps (fun a b => P (f a) (f b)) l -> steps P (map f l).
Proof. intros A B f P l H i a b E F. apply nth_map_inv in E. apply nth_map_inv in F. destruct E as (x & E & ->). destruct F as (y & F & ->). exact (H i x y E F). Qed.
Lemma steps_impl : forall A (P Q : A -> A -> Prop) l, (forall a b, In a l -> In b l -> P a b -> Q a b) -> steps P l -> steps Q l.
Proof. intros A P Q l H S i a b E F. apply H; [exact (nth_error_In _ _ E)|exact (nth_error_In _ _ F)|exact (S i a b E F)]. Qed.
Lemma steps_sorted : forall d, Forall finite d -> steps (fun a b => value a < value b) d -> strictly_sorted fcmp d.
Proof.
  intros d F S i j. induction j as [|j IH]; intros x y L X Y; [lia|]. rewrite Forall_forall in F.
  pose proof (F y (nth_error_In _ _ Y)) as Fy. pose proof (F x (nth_error_In _ _ X)) as Fx. apply flt_finite; [exact Fx|exact Fy|].
  destruct (nth_error d j) as [z|] eqn:Z; [|apply nth_error_None in Z; assert (Datatypes.S j < length d)%nat by (apply nth_error_Some; congruence); lia].
  pose proof (F z (nth_error_In _ _ Z)) as Fz. assert (Y' : nth_error d (j + 1) = Some y) by (replace (j + 1)%nat with (Datatypes.S j) by lia; exact Y).
  pose proof (S j z y Z Y') as Q. change (value z < value y) in Q. destruct (Nat.eq_dec i j) as [->|N]; [rewrite X in Z; injection Z as ->; exact Q|].
  pose proof (IH x z ltac:(lia) X eq_refl) as R. apply flt_finite in R; [|exact Fx|exact Fz]. change (value x < value z) in R. change (value x < value y). lra.
Qed.
Lemma level_range : forall m s f : R, / 2 ^ 10 <= m <= 2 ^ 10 -> / 2 ^ 20 <= s <= 2 ^ 30 -> / 2 ^ 20 <= f <= 2 ^ 30 ->
  / 2 ^ 30 <= m * s <= 2 ^ 40 /\ / 2 ^ 60 <= m * s / f <= 2 ^ 60.
Proof.
  intros m s f M S F. assert (A : / 2 ^ 30 <= m * s <= 2 ^ 40).
  { replace (2 ^ 30) with (2 ^ 10 * 2 ^ 20) at 1 by (rewrite <- pow_add; reflexivity). rewrite Rinv_mult. replace (2 ^ 40) with (2 ^ 10 * 2 ^ 30) by (rewrite <- pow_add; reflexivity).
    assert (0 < / 2 ^ 10) by (apply Rinv_0_lt_compat; lra). assert (0 < / 2 ^ 20) by (apply Rinv_0_lt_compat; lra). split; apply Rmult_le_compat; lra. }
  split; [exact A|]. assert (0 < / 2 ^ 20) by (apply Rinv_0_lt_compat; lra). assert (0 < / 2 ^ 30) by (apply Rinv_0_lt_compat; lra). assert (0 < f) by lra.
  assert (I : / 2 ^ 30 <= / f <= 2 ^ 20).
  { split; [apply Rinv_le; lra|]. rewrite <- (Rinv_inv (2 ^ 20)). apply Rinv_le; lra. }
  unfold Rdiv. replace (2 ^ 60) with (2 ^ 30 * 2 ^ 30) at 1 by (rewrite <- pow_add; reflexivity). rewrite Rinv_mult. replace (2 ^ 60) with (2 ^ 40 * 2 ^ 20) by (rewrite <- pow_add; reflexivity).
  split; apply Rmult_le_compat; lra.
Qed.
Lemma pow60_100 : / two100 <= / 2 ^ 61 /\ 2 ^ 61 <= two100.
Proof.
  assert (E : 2 ^ 61 <= two100) by (rewrite <- p100; apply Rle_pow; [lra|lia]). split; [|exact E]. apply Rinv_le; [lra|exact E].
Qed.
Lemma fm_value : forall m s f : f32, finite m -> finite s -> finite f -> / 2 ^ 10 <= value m <= 2 ^ 10 -> / 2 ^ 20 <= value s <= 2 ^ 30 -> / 2 ^ 20 <= value f <= 2 ^ 30 ->
  exists d, Rabs d <= 3 * e24 /\ fn (gdiv (gmul m s) f) (value m * value s / value f * (1 + d)).
Proof.
  intros m s f Fm Fs Ff M S F. destruct (level_range _ _ _ M S F) as [A B]. destruct pow60_100 as [Q1 Q2].
  assert (P30 : 0 < / 2 ^ 30) by (apply Rinv_0_lt_compat; lra). assert (P60 : 0 < / 2 ^ 60) by (apply Rinv_0_lt_compat; lra). assert (P20 : 0 < / 2 ^ 20) by (apply Rinv_0_lt_compat; lra).
  assert (L61 : / 2 ^ 61 <= / 2 ^ 30) by (apply Rinv_le; lra).
  destruct (mul_rel m s (value m) (value s) (conj Fm eq_refl) (conj Fs eq_refl)) as (d1 & D1 & X1).
  { rewrite Rabs_pos_eq by lra. lra. }
  assert (D1' := Rabs_le_inv _ _ D1). pose proof e24_pos as E0. assert (E1 : e24 = / 16777216) by reflexivity.
  destruct (div_rel (gmul m s) f _ (value f) X1 (conj Ff eq_refl) ltac:(lra)) as (d2 & D2 & X2).
  { replace (value m * value s * (1 + d1) / value f) with (value m * value s / value f * (1 + d1)) by (field; lra).
    assert (/ 2 ^ 61 * 2 = / 2 ^ 60) by (change 61%nat with (1 + 60)%nat; rewrite pow_add; field).
    set (r := value m * value s / value f) in *. assert (r * (1 / 2) <= r * (1 + d1)) by (apply Rmult_le_compat_l; lra). assert (r * (1 + d1) <= r * 2) by (apply Rmult_le_compat_l; lra).
    assert (2 ^ 61 = 2 * 2 ^ 60) by (change 61%nat with (1 + 60)%nat; rewrite pow_add; ring). rewrite Rabs_pos_eq by lra. lra. }
  exists (d1 + d2 + d1 * d2). split.
  - assert (D2' := Rabs_le_inv _ _ D2). assert (Rabs (d1 * d2) <= e24 * 1) by (rewrite Rabs_mult; apply Rmult_le_compat; try apply Rabs_pos; lra).
    apply Rle_trans with (1 := Rabs_triang _ _). pose proof (Rabs_triang d1 d2). lra.
  - replace (value m * value s / value f * (1 + (d1 + d2 + d1 * d2))) with (value m * value s * (1 + d1) / value f * (1 + d2)) by (field; lra). exact X2.
Qed.
Lemma fm_gentle : forall money s f row M, Forall (fun m => finite m /\ / 2 ^ 10 <= value m <= 2 ^ 10) money -> steps (fun a b => value a * (1 + / 2 ^ 20) <= value b) money ->
  (finite s /\ / 2 ^ 20 <= value s <= 2 ^ 30) -> (finite f /\ / 2 ^ 20 <= value f <= 2 ^ 30) -> length row = length money -> Forall (fun v => finite v /\ Rabs (value v) <= M) row -> M <= 2 ^ 10 ->
  gentle (forward_money money s f) row M /\ Forall (fun a => 0 <= value a <= 2 ^ 61) (forward_money money s f).
Proof.
  intros money s f row M FM SM [Fs S] [Ff F] L FV HM. rewrite Forall_forall in FM. pose proof e24_pos as E0. assert (E1 : e24 = / 16777216) by reflexivity.
  assert (VAL : forall m, In m money -> exists d r, r = value m * value s / value f /\ Rabs d <= 3 * e24 /\ fn (gdiv (gmul m s) f) (r * (1 + d)) /\ / 2 ^ 60 <= r <= 2 ^ 60).
  { intros m I. destruct (FM m I) as [Fm Rm]. destruct (fm_value m s f Fm Fs Ff Rm S F) as (d & D & X). exists d, (value m * value s / value f). split; [reflexivity|]. split; [exact D|]. split; [exact X|]. apply (level_range _ _ _ Rm S F). }
  assert (P60 : 0 < / 2 ^ 60) by (apply Rinv_0_lt_compat; lra). assert (P20 : 0 < / 2 ^ 20) by (apply Rinv_0_lt_compat; lra).
  assert (V20 : / 2 ^ 20 = 16 * e24) by (rewrite E1; lra).
  assert (GAP : forall a b, In a money -> In b money -> value a * (1 + / 2 ^ 20) <= value b ->
     value (gdiv (gmul a s) f) + / 2 ^ 60 * (8 * e24) <= value (gdiv (gmul b s) f)).
  { intros a b Ia Ib H. destruct (VAL a Ia) as (d & r & Er & D & [_ X] & R1). destruct (VAL b Ib) as (d' & r' & Er' & D' & [_ X'] & R1'). unfold value. rewrite X, X'.
    assert (D1 := Rabs_le_inv _ _ D). assert (D1' := Rabs_le_inv _ _ D'). assert (Pf : 0 < / value f) by (apply Rinv_0_lt_compat; lra). assert (Psf : 0 < value s * / value f) by (apply Rmult_lt_0_compat; lra).
    assert (RR : r * (1 + / 2 ^ 20) <= r').
    { rewrite Er, Er'. unfold Rdiv. replace (value a * value s * / value f * (1 + / 2 ^ 20)) with (value a * (1 + / 2 ^ 20) * (value s * / value f)) by ring. replace (value b * value s * / value f) with (value b * (value s * / value f)) by ring. apply Rmult_le_compat_r; lra. }
    apply Rle_trans with (r' * (1 - 3 * e24)); [|apply Rmult_le_compat_l; lra]. apply Rle_trans with (r * (1 + / 2 ^ 20) * (1 - 3 * e24)); [|apply Rmult_le_compat_r; lra].
    apply Rle_trans with (r * (1 + 3 * e24) + / 2 ^ 60 * (8 * e24)); [apply Rplus_le_compat_r; apply Rmult_le_compat_l; lra|].
    apply Rle_trans with (r * (1 + 3 * e24) + r * (8 * e24)); [apply Rplus_le_compat_l; apply Rmult_le_compat_r; lra|].
    rewrite <- Rmult_plus_distr_l, Rmult_assoc. apply Rmult_le_compat_l; [lra|]. rewrite V20, E1. lra. }
  assert (FF : Forall finite (forward_money money s f)).
  { apply Forall_forall. intros x I. apply in_map_iff in I. destruct I as (m & <- & I). destruct (VAL m I) as (d & r & _ & _ & [X _] & _). exact X. }
  assert (P68 : 0 < / 2 ^ 60 * (8 * e24)) by (apply Rmult_lt_0_compat; lra).
  assert (UP : Forall (fun a => 0 <= value a <= 2 ^ 61) (forward_money money s f)).
  { apply Forall_forall. intros x I. apply in_map_iff in I. destruct I as (m & <- & I). destruct (VAL m I) as (d & r & _ & D & [_ X] & B). unfold value. rewrite X. assert (D1 := Rabs_le_inv _ _ D).
    split; [apply Rmult_le_pos; lra|]. apply Rle_trans with (2 ^ 60 * (1 + 3 * e24)); [apply Rmult_le_compat; lra|]. rewrite E1. lra. }
  split; [|exact UP]. split; [unfold forward_money; rewrite map_length; congruence|]. split; [exact FF|]. split.
  { apply steps_sorted; [exact FF|]. unfold forward_money. apply steps_map. eapply steps_impl; [|exact SM]. cbn. intros a b Ia Ib H. pose proof (GAP a b Ia Ib H). lra. }
  split; [exact FV|]. assert (TB : 2 ^ 61 <= 2 ^ 100) by (apply Rle_pow; [lra|lia]). split; [lra|].
  intros i a b u w A B U W. unfold forward_money in A, B. apply nth_map_inv in A. apply nth_map_inv in B. destruct A as (m & A & ->). destruct B as (m' & B & ->).
  change real_of with value. pose proof (GAP m m' (nth_error_In _ _ A) (nth_error_In _ _ B) (SM i m m' A B)) as G. rewrite Forall_forall in UP.
  pose proof (UP (gdiv (gmul m' s) f) ltac:(apply in_map_iff; exists m'; split; [reflexivity|exact (nth_error_In _ _ B)])) as U2.
  pose proof (UP (gdiv (gmul m s) f) ltac:(apply in_map_iff; exists m; split; [reflexivity|exact (nth_error_In _ _ A)])) as U1. split; [lra|].
  rewrite Forall_forall in FV. destruct (FV u (nth_error_In _ _ U)) as [_ Bu]. destruct (FV w (nth_error_In _ _ W)) as [_ Bw]. apply Rle_trans with (2 ^ 11).
  - apply Rabs_le. apply Rabs_le_inv in Bu. apply Rabs_le_inv in Bw. lra.
  - apply Rle_trans with (2 ^ 100 * (/ 2 ^ 60 * (8 * e24))); [|apply Rmult_le_compat_l; lra].
    replace (2 ^ 100) with (2 ^ 40 * 2 ^ 60) by (rewrite <- pow_add; reflexivity). replace (2 ^ 40 * 2 ^ 60 * (/ 2 ^ 60 * (8 * e24))) with (2 ^ 40 * (8 * e24)) by (field; lra). rewrite E1. lra.
Qed.

(** ** surfaces *)
Lemma map_res_F2 : forall A B (f : A -> outcome (rresult B)) l ys, map_res f l = Ret (ROk ys) <-> Forall2 (fun x y => f x = Ret (ROk y)) l ys.
Proof.
  intros A B f. induction l as [|x l IH]; intros ys; cbn [map_res].
  - split; [intros [= <-]; constructor|intro H; inversion H; reflexivity].
  - split.
    + destruct (f x) as [[y|]| |] eqn:E; cbn [rbind]; try discriminate. destruct (map_res f l) as [[zs|]| |] eqn:E'; cbn [rbind]; try discriminate. intros [= <-]. constructor; [exact E|]. apply IH. reflexivity.
    + intro H. inversion H as [|? y ? zs Hy Hz]; subst. rewrite Hy. cbn [rbind]. apply IH in Hz. rewrite Hz. reflexivity.
Qed.
Lemma map_res2_F2 : forall A B C (f : A -> B -> outcome (rresult C)) l m ys, map_res2 f l m = Ret (ROk ys) <-> Forall2 (fun p y => f (fst p) (snd p) = Ret (ROk y)) (combine l m) ys.
Proof.
  intros A B C f. induction l as [|x l IH]; intros m ys; [cbn; split; [intros [= <-]; constructor|intro H; inversion H; reflexivity]|].
  destruct m as [|z m]; [cbn; split; [intros [= <-]; constructor|intro H; inversion H; reflexivity]|]. cbn [map_res2 combine]. split.
  - destruct (f x z) as [[y|]| |] eqn:E; cbn [rbind]; try discriminate. destruct (map_res2 f l m) as [[zs|]| |] eqn:E'; cbn [rbind]; try discriminate. intros [= <-]. constructor; [exact E|]. apply IH. exact E'.
  - intro H. inversion H as [|? y ? zs Hy Hz]; subst. cbn [fst snd] in Hy. rewrite Hy. cbn [rbind]. apply IH in Hz. rewrite Hz. reflexivity.
Qed.
Lemma F2_nth : forall A B (P : A -> B -> Prop) l m i x y, Forall2 P l m -> nth_error l i = Some x -> nth_error m i = Some y -> P x y.
Proof.
  intros A B P l m i x y H. revert i. induction H as [|a b l m H F IH]; intros i E E'; [destruct i; discriminate E|].
  destruct i as [|i]; [cbn in *; congruence|exact (IH i E E')].
Qed.
Definition with_interp (s : surface) (b : bilinear) : surface := Surface (su_grid s) (su_dates s) (su_times s) (su_money s) (su_spot s) b (su_sticky s).
Lemma build_inv : forall e s s', vol_build e s = Ret (ROk s') -> exists fwds interps,
  forwards e (sticky_spot e s) s fwds /\ Forall2 (fun p l => linear_new (forward_money (su_money s) (su_spot s) (fst p)) (snd p) XFlat true = Ret (ROk l)) (combine fwds (su_grid s)) interps /\
  bilinear_new (su_times s) interps true XFlat = Ret (ROk (su_interp s')) /\ s' = with_interp s (su_interp s').
Proof.
  intros e s s' H. unfold vol_build in H. fold (sticky_spot e s) in H.
  destruct (map_res (vol_forward e (sticky_spot e s)) (su_dates s)) as [[fwds|]| |] eqn:E1; cbn [rbind] in H; try discriminate H.
  destruct (map_res2 _ fwds (su_grid s)) as [[ls|]| |] eqn:E2; cbn [rbind] in H; try discriminate H.
  destruct (bilinear_new (su_times s) ls true XFlat) as [[b|]| |] eqn:E3; cbn [rbind] in H; try discriminate H.
  injection H as <-. cbn [su_interp]. exists fwds, ls. split; [apply map_res_F2; exact E1|]. split; [apply map_res2_F2 in E2; exact E2|]. split; [exact E3|reflexivity].
Qed.
Lemma forwards_unique : forall e spot s f f', forwards e spot s f -> forwards e spot s f' -> f = f'.
Proof.
  intros e spot s f f' H. revert f'. unfold forwards in *. induction H as [|d x l m H F IH]; intros f' H'; inversion H' as [|? y ? m' Hy Hm]; subst; [reflexivity|].
  f_equal; [rewrite H in Hy; congruence|apply IH; exact Hm].
Qed.
(** the interpolators of the rows, and the one across them *)
Definition laid (s : surface) (fwds : list f32) (bi : bilinear) : Prop := exists interps,
  Forall2 (fun p l => linear_new (forward_money (su_money s) (su_spot s) (fst p)) (snd p) XFlat true = Ret (ROk l)) (combine fwds (su_grid s)) interps /\
  bilinear_new (su_times s) interps true XFlat = Ret (ROk bi).
Section Built.
Context (e : vol_env) (s : surface) (fwds : list f32) (M : R).
Context (T : tame s fwds M) (FW : forwards e (sticky_spot e s) s fwds).
Lemma row_gentle : forall i f row, nth_error fwds i = Some f -> nth_error (su_grid s) i = Some row ->
  gentle (forward_money (su_money s) (su_spot s) f) row M /\ Forall (fun a => 0 <= value a <= 2 ^ 61) (forward_money (su_money s) (su_spot s) f) /\ length (forward_money (su_money s) (su_spot s) f) = length (su_money s).
Proof using T.
  intros i f row F G. destruct T as [[R1 [R2 R3]] [C1 C2] TT [M1 M2] LV [V1 V2]]. inversion LV as [|? ? LS LF]; subst. rewrite Forall_forall in LF, C2, V1.
  destruct (fm_gentle (su_money s) (su_spot s) f row M M1 M2 LS (LF f (nth_error_In _ _ F)) (C2 row (nth_error_In _ _ G)) (V1 row (nth_error_In _ _ G)) V2) as [A B].
  split; [exact A|]. split; [exact B|]. unfold forward_money. apply map_length.
Qed.
Lemma times_ok : Forall finite (su_times s) /\ strictly_sorted fcmp (su_times s).
Proof using T.
  destruct T as [_ _ [T1 T2] _ _ _]. assert (F : Forall finite (su_times s)) by (eapply Forall_impl; [|exact T1]; intros a [H _]; exact H). split; [exact F|].
  apply steps_sorted; [exact F|]. eapply steps_impl; [|exact T2]. cbn. intros a b _ _ H. assert (0 < / 2 ^ 20) by (apply Rinv_0_lt_compat; lra). lra.
Qed.
Lemma builds : exists b, vol_build e s = Ret (ROk (with_interp s b)).
Proof using T FW.
  unfold vol_build. fold (sticky_spot e s). pose proof FW as F. apply map_res_F2 in F. rewrite F. cbn [rbind]. destruct times_ok as [FT ST].
  assert (X : exists ls, map_res2 (fun f row => linear_new (forward_money (su_money s) (su_spot s) f) row XFlat true) fwds (su_grid s) = Ret (ROk ls) /\ length ls = length (su_times s)).
  { assert (G : forall i f row, nth_error fwds i = Some f -> nth_error (su_grid s) i = Some row -> exists l, linear_new (forward_money (su_money s) (su_spot s) f) row XFlat true = Ret (ROk l)).
    { intros i f row Hf Hr. destruct (row_gentle i f row Hf Hr) as ((L & FD & SD & _) & _ & LM). destruct (linear_new_cases (forward_money (su_money s) (su_spot s) f) row XFlat true) as [(A & _)|[(_ & A & _)|[(_ & _ & (k & a & b & A & B & C) & _)|(_ & _ & _ & E)]]].
      - congruence.
      - exfalso. destruct T as [_ [C1 _] _ _ _ _]. rewrite A in LM. cbn in LM. lia.
      - exfalso. pose proof (SD k (k + 1)%nat a b ltac:(lia) A B) as Q. unfold lt in Q. congruence.
      - eexists. exact E. }
    destruct T as [[_ [R2 R3]] _ _ _ _ _]. rewrite <- R2 in R3. rewrite <- R2. clear - G R3. revert G R3. generalize (su_grid s) as grid. induction fwds as [|f fs IH]; intros grid G L; destruct grid as [|row grid]; try discriminate L; [exists []; auto|].
    destruct (G 0%nat f row eq_refl eq_refl) as (l & E). destruct (IH grid (fun i => G (Datatypes.S i)) ltac:(injection L as L; exact L)) as (ls & E' & L'). exists (l :: ls). cbn [map_res2]. rewrite E. cbn [rbind]. rewrite E'. cbn [rbind length]. split; [reflexivity|congruence]. }
  destruct X as (ls & E & L). rewrite E. cbn [rbind]. destruct T as [[R1 _] _ _ _ _ _].
  destruct (c118_new (su_times s) ls true XFlat) as (_ & _ & B). rewrite B; [cbn [rbind]; eexists; reflexivity|congruence|intro Q; rewrite Q in R1; cbn in R1; lia|].
  intros i a b A A' C. pose proof (ST i (i + 1)%nat a b ltac:(lia) A A') as Q. unfold lt in Q. congruence.
Qed.
Context (bi : bilinear) (B : laid s fwds bi).
Lemma row_of : forall i, (i < length (su_times s))%nat -> exists t f row l, nth_error (su_times s) i = Some t /\ nth_error fwds i = Some f /\ nth_error (su_grid s) i = Some row /\
  nth_error (b_x bi) i = Some l /\ linear_new (forward_money (su_money s) (su_spot s) f) row XFlat true = Ret (ROk l).
Proof using T B.
  intros i I. destruct B as (ls & L & N). destruct T as [[R1 [R2 R3]] _ _ _ _ _].
  destruct (bnew_inv _ _ _ _ _ N) as (L' & _ & E). rewrite E. cbn [b_x].
  destruct (at_lt _ (su_times s) i I) as (t & Ht & _). destruct (at_lt _ fwds i ltac:(lia)) as (f & Hf & _). destruct (at_lt _ (su_grid s) i ltac:(lia)) as (row & Hr & _). destruct (at_lt _ ls i ltac:(lia)) as (l & Hl & _).
  exists t, f, row, l. split; [exact Ht|]. split; [exact Hf|]. split; [exact Hr|]. split; [exact Hl|]. exact (F2_nth _ _ _ _ _ i (f, row) l L (nth_combine _ _ _ _ i f row Hf Hr) Hl).
Qed.
Lemma bnew_of : bilinear_new (su_times s) (b_x bi) true XFlat = Ret (ROk bi).
Proof using B. destruct B as (ls & L & N). destruct (bnew_inv _ _ _ _ _ N) as (L' & _ & E). rewrite E in *. cbn [b_x]. exact N. Qed.
(** the knots of the sheet in time, at the moneyness x *)
Definition columns (x : R) : list (R * R) := map (fun r => (fst r, piecewise (snd r) x)) (sheet_rows s fwds).
Lemma columns_nth : forall x i t f row, nth_error (su_times s) i = Some t -> nth_error fwds i = Some f -> nth_error (su_grid s) i = Some row ->
  nth_error (columns x) i = Some (value t, piecewise (points (forward_money (su_money s) (su_spot s) f) row) x).
Proof using.
  intros x i t f row Ht Hf Hr. unfold columns, sheet_rows. rewrite map_map. erewrite map_nth_error; [|exact (nth_combine _ _ _ _ i t (f, row) Ht (nth_combine _ _ _ _ i f row Hf Hr))].
  cbn [fst snd]. unfold knots, points, forward_money. rewrite map_map. reflexivity.
Qed.
Lemma columns_length : forall x, length (columns x) = length (su_times s).
Proof using T. intro x. unfold columns, sheet_rows. rewrite !map_length, !combine_length. destruct T as [[R1 [R2 R3]] _ _ _ _ _]. lia. Qed.
Lemma columns_inv : forall x i p, nth_error (columns x) i = Some p -> exists t f row, nth_error (su_times s) i = Some t /\ nth_error fwds i = Some f /\ nth_error (su_grid s) i = Some row /\
  p = (value t, piecewise (points (forward_money (su_money s) (su_spot s) f) row) x).
Proof using.
  intros x i p H. unfold columns, sheet_rows in H. rewrite map_map in H. apply nth_map_inv in H. destruct H as ((t & f & row) & H & ->). apply nth_combine_inv in H. cbn [fst snd] in H. destruct H as [Ht H]. apply nth_combine_inv in H. cbn [fst snd] in H. destruct H as [Hf Hr].
  exists t, f, row. split; [exact Ht|]. split; [exact Hf|]. split; [exact Hr|]. cbn [fst snd]. unfold knots, points, forward_money. rewrite map_map. reflexivity.
Qed.
Lemma columns_rising : forall x, rising (columns x).
Proof using T.
  intros x i p q P Q. destruct (columns_inv x i p P) as (t & f & row & Ht & _ & _ & ->). destruct (columns_inv x _ q Q) as (t' & f' & row' & Ht' & _ & _ & ->). cbn [fst].
  destruct T as [_ _ [_ T2] _ _ _]. pose proof (T2 i t t' Ht Ht') as H. cbn beta in H. assert (0 < / 2 ^ 20) by (apply Rinv_0_lt_compat; lra). lra.
Qed.
Lemma M_pos : 0 <= M.
Proof using T.
  destruct T as [[R1 [R2 R3]] [C1 C2] _ _ _ [V1 _]]. destruct (at_lt _ (su_grid s) 0%nat ltac:(lia)) as (row & Hr & _). rewrite Forall_forall in C2, V1.
  pose proof (C2 row (nth_error_In _ _ Hr)) as L. pose proof (V1 row (nth_error_In _ _ Hr)) as V. destruct row as [|v row]; [cbn in L; lia|]. inversion V as [|? ? [_ Hv] _]; subst. apply Rle_trans with (2 := Hv). apply Rabs_pos.
Qed.
Lemma column_between : forall x p lo hi, In p (columns x) -> Forall (Forall (fun v => lo <= value v <= hi)) (su_grid s) -> lo <= snd p <= hi.
Proof using T.
  intros x p lo hi I FG. apply In_nth_error in I. destruct I as [i I]. destruct (columns_inv x i p I) as (t & f & row & Ht & Hf & Hr & ->). cbn [snd].
  destruct (row_gentle i f row Hf Hr) as ((L & FD & SD & _) & _ & LM). apply piecewise_between.
  - apply points_rising; assumption.
  - intro Z. assert (N : length (points (forward_money (su_money s) (su_spot s) f) row) = 0%nat) by (rewrite Z; reflexivity). rewrite points_length in N by exact L. destruct T as [_ [C1 _] _ _ _ _]. lia.
  - apply Forall_forall. intros q Q. apply In_nth_error in Q. destruct Q as [k Q]. unfold points in Q. apply nth_combine_inv in Q. destruct Q as [_ Q]. apply nth_map_inv in Q. destruct Q as (v & Q & ->).
    rewrite Forall_forall in FG. pose proof (FG row (nth_error_In _ _ Hr)) as FR. rewrite Forall_forall in FR. exact (FR v (nth_error_In _ _ Q)).
Qed.
Lemma grid_bounds : Forall (Forall (fun v => - M <= value v <= M)) (su_grid s).
Proof using T. destruct T as [_ _ _ _ _ [V1 _]]. eapply Forall_impl; [|exact V1]. intros row H. eapply Forall_impl; [|exact H]. cbn. intros v [_ Hv]. apply Rabs_le_inv. exact Hv. Qed.
Lemma laid_close : forall t x, finite t -> finite x -> exists y, bilinear_interpolate bi t x = Ret (ROk y) /\ finite y /\
  Rabs (value y - sheet (sheet_rows s fwds) (value t) (value x)) <= 25 * / 2 ^ 24 * M + / 2 ^ 70.
Proof using T B.
  intros t x Ft Fx. change (sheet (sheet_rows s fwds) (value t) (value x)) with (piecewise (columns (value x)) (value t)).
  destruct times_ok as [FT ST]. pose proof M_pos as M0. pose proof T as [[R1 [R2 R3]] [C1 C2] [T1 T2] _ _ [V1 V2]].
  assert (V24 : / 2 ^ 24 = e24) by (unfold e24; f_equal; lra). assert (E1 : e24 = / 16777216) by reflexivity.
  assert (P80 : 0 < / 2 ^ 80) by (apply Rinv_0_lt_compat; lra). assert (P70 : / 2 ^ 70 = 1024 * / 2 ^ 80) by (change 80%nat with (10 + 70)%nat; rewrite pow_add; field; split; apply pow_nonzero; lra).
  assert (ROW : forall i, (i < length (su_times s))%nat -> exists ti l y c, nth_error (su_times s) i = Some ti /\ nth_error (b_x bi) i = Some l /\ linear_interpolate l x = Ret (ROk y) /\ finite y /\
     nth_error (columns (value x)) i = Some (value ti, c) /\ Rabs (value y - c) <= 12 * / 2 ^ 24 * M + / 2 ^ 80 /\ - M <= c <= M).
  { intros i I. destruct (row_of i I) as (ti & f & row & l & Ht & Hf & Hr & Hl & E). destruct (row_gentle i f row Hf Hr) as (G & U & LM).
    destruct (row_close _ _ M l x G ltac:(lia) U E Fx) as (y & Ey & Fy & Cy). pose proof (columns_nth (value x) i ti f row Ht Hf Hr) as Hc.
    exists ti, l, y, (piecewise (points (forward_money (su_money s) (su_spot s) f) row) (value x)). split; [exact Ht|]. split; [exact Hl|]. split; [exact Ey|]. split; [exact Fy|]. split; [exact Hc|]. split; [exact Cy|].
    exact (column_between (value x) _ (- M) M (nth_error_In _ _ Hc) grid_bounds). }
  destruct (ROW 0%nat ltac:(lia)) as (t0 & l0 & y0 & c0 & H0 & L0 & Y0 & F0 & K0 & B0 & D0). destruct (ROW 1%nat ltac:(lia)) as (t1 & l1 & y1 & c1 & H1 & L1 & Y1 & F1 & K1 & B1 & D1).
  destruct (ROW (length (su_times s) - 2)%nat ltac:(lia)) as (t8 & l8 & y8 & c8 & H8 & L8 & Y8 & F8 & K8 & B8 & D8). destruct (ROW (length (su_times s) - 1)%nat ltac:(lia)) as (t9 & l9 & y9 & c9 & H9 & L9 & Y9 & F9 & K9 & B9 & D9).
  rewrite V24 in *. assert (EM : 0 <= e24 * M) by (apply Rmult_le_pos; lra).
  destruct (c120_edges _ _ true XFlat _ t x t0 t1 t8 t9 l0 l1 l8 l9 bnew_of (finite_numbers _ FT) (strict_sorted fcmp _ ST) (finite_number t Ft) R1 H0 H1 H8 H9 L0 L1 L8 L9) as (_ & ED0 & ED9 & _).
  assert (FI : forall i a, nth_error (su_times s) i = Some a -> finite a) by (intros i a A; rewrite Forall_forall in FT; eauto using nth_error_In).
  destruct (Rlt_or_le (value t) (value t0)) as [X0|X0]; [|destruct (Rlt_or_le (value t) (value t9)) as [X9|X9]].
  - exists y0. split; [rewrite (ED0 eq_refl eq_refl (proj2 (flt_finite t t0 Ft (FI _ _ H0)) X0)); exact Y0|]. split; [exact F0|]. rewrite (piecewise_low _ _ _ _ K0 X0). lra.
  - destruct (c120_inside _ _ true XFlat _ t x t0 t9 bnew_of (finite_numbers _ FT) ST (finite_number t Ft) H0 H9 (proj2 (fle_finite t0 t (FI _ _ H0) Ft) X0) (proj2 (flt_finite t t9 Ft (FI _ _ H9)) X9))
      as (i & a & b & k1 & k2 & Ha & Hb & K1' & K2' & LA & LB & IN & _).
    assert (Ib : (i + 1 < length (su_times s))%nat) by (apply nth_error_Some; congruence).
    destruct (ROW i ltac:(lia)) as (a' & l1' & v1 & u1 & Ha' & Hl1 & Y1' & Fv1 & Q1 & E1' & G1). destruct (ROW (i + 1)%nat Ib) as (b' & l2' & v2 & u2 & Hb' & Hl2 & Y2' & Fv2 & Q2 & E2' & G2).
    assert (a' = a) by congruence. assert (b' = b) by congruence. assert (l1' = k1) by congruence. assert (l2' = k2) by congruence. subst a' b' l1' l2'. clear Ha' Hb' K1' K2'.
    apply fle_finite in LA; [|exact (FI _ _ Ha)|exact Ft]. apply flt_finite in LB; [|exact Ft|exact (FI _ _ Hb)]. change (value a <= value t) in LA. change (value t < value b) in LB.
    pose proof (T2 i a b Ha Hb) as GAP. cbn beta in GAP. rewrite Forall_forall in T1. pose proof (T1 a (nth_error_In _ _ Ha)) as [_ Ra]. pose proof (T1 b (nth_error_In _ _ Hb)) as [_ Rb].
    assert (P20 : 0 < / 2 ^ 20) by (apply Rinv_0_lt_compat; lra). set (W := M + (12 * e24 * M + / 2 ^ 80)).
    assert (W1 : Rabs (value v1) <= W) by (unfold W; apply Rabs_le; apply Rabs_le_inv in E1'; lra). assert (W2 : Rabs (value v2) <= W) by (unfold W; apply Rabs_le; apply Rabs_le_inv in E2'; lra).
    assert (S80 : / 2 ^ 80 <= / 2 ^ 20) by (apply Rinv_le; [lra|apply Rle_pow; [lra|lia]]).
    assert (WU : W <= 2 ^ 11) by (unfold W; assert (e24 * M <= M) by (rewrite <- (Rmult_1_l M) at 2; apply Rmult_le_compat_r; lra); assert (12 * e24 * M <= 12 * e24 * 2 ^ 10) by (apply Rmult_le_compat_l; lra); rewrite E1 in *; lra).
    destruct pow60_100 as [Q61 Q61'].
    destruct (blend_close a b v1 v2 t (value a) (value b) (value v1) (value v2) (value t) W) as (v & Fv & Cv); try (split; [first [exact (FI _ _ Ha)|exact (FI _ _ Hb)|assumption]|reflexivity]); [lra|lra| |exact W1|exact W2|lra| |].
    { split; [apply Rle_trans with (1 := Q61); apply Rle_trans with (/ 2 ^ 20); [apply Rinv_le; lra|lra]|lra]. }
    { apply Rle_trans with (2 ^ 11 * 2 ^ 10); [|lra]. apply Rmult_le_compat; [unfold W; lra|lra|exact WU|lra]. }
    exists (gadd v1 (gdiv (gmul (gsub t a) (gsub v2 v1)) (gsub b a))). split; [exact (IN v1 v2 Y1' Y2')|]. split; [exact (proj1 Fv)|]. unfold value at 1. rewrite (proj2 Fv).
    rewrite (piecewise_inside _ (value t) i (value a) u1 (value b) u2 (columns_rising _) Q1 Q2 (conj LA LB)). fold (chord (value a) (value b) u1 u2 (value t)).
    pose proof (chord_shift (value a) (value b) u1 u2 (value v1) (value v2) (value t) (12 * e24 * M + / 2 ^ 80) ltac:(lra) ltac:(lra) E1' E2') as SH.
    assert (TI : 2 * tiny * (1 + / (value b - value a)) <= / 2 ^ 80).
    { assert (I : / (value b - value a) <= 2 ^ 20) by (rewrite <- (Rinv_inv (2 ^ 20)); apply Rinv_le; lra).
      assert (TN : / 2 ^ 149 = 2 * tiny) by (unfold tiny; change 2 with (bpow radix2 1) at 2; rewrite <- bpow_plus; change (1 + -150)%Z with (Z.opp (Z.of_nat 149)); rewrite bpow_opp, <- IZR_Zpower_nat, pow_IZR; reflexivity).
      rewrite <- TN. apply small_term. split; [left; apply Rinv_0_lt_compat; lra|lra]. }
    assert (WE : 12 * e24 * W <= 12 * e24 * M + / 2 * (e24 * M) + / 2 ^ 80).
    { unfold W. replace (12 * e24 * (M + (12 * e24 * M + / 2 ^ 80))) with (12 * e24 * M + (144 * e24) * (e24 * M) + 12 * e24 * / 2 ^ 80) by ring.
      assert (144 * e24 * (e24 * M) <= / 2 * (e24 * M)) by (apply Rmult_le_compat_r; [exact EM|rewrite E1; lra]). assert (12 * e24 * / 2 ^ 80 <= 1 * / 2 ^ 80) by (apply Rmult_le_compat_r; [lra|rewrite E1; lra]). lra. }
    replace (v - chord (value a) (value b) u1 u2 (value t)) with ((v - chord (value a) (value b) (value v1) (value v2) (value t)) + (chord (value a) (value b) (value v1) (value v2) (value t) - chord (value a) (value b) u1 u2 (value t))) by ring.
    apply Rle_trans with (1 := Rabs_triang _ _). lra.
  - exists y9. split; [rewrite (ED9 eq_refl eq_refl (proj2 (fle_finite t9 t (FI _ _ H9) Ft) X9)); exact Y9|]. split; [exact F9|]. rewrite <- (columns_length (value x)) in K9. rewrite (piecewise_high _ _ _ _ (columns_rising _) K9 X9). lra.
Qed.
(** on its knots the surface is its grid *)
Lemma laid_knot : forall i j t f row m v, nth_error (su_times s) i = Some t -> nth_error fwds i = Some f -> nth_error (su_grid s) i = Some row -> nth_error (su_money s) j = Some m -> nth_error row j = Some v ->
  exists y, bilinear_interpolate bi t (gdiv (gmul m (su_spot s)) f) = Ret (ROk y) /\ finite y /\ value y = value v.
Proof using T B.
  intros i j t f row m v Ht Hf Hr Hm Hv. destruct times_ok as [FT ST]. pose proof T as [[R1 [R2 R3]] [C1 C2] [T1 T2] _ _ [V1 V2]].
  set (x := gdiv (gmul m (su_spot s)) f). assert (Hx : nth_error (forward_money (su_money s) (su_spot s) f) j = Some x) by exact (map_nth_error _ _ _ Hm).
  assert (I : (i < length (su_times s))%nat) by (apply nth_error_Some; congruence). destruct (row_of i I) as (t' & f' & row' & l & Ht' & Hf' & Hr' & Hl & E).
  assert (t' = t) by congruence. assert (f' = f) by congruence. assert (row' = row) by congruence. subst t' f' row'. clear Ht' Hf' Hr'.
  destruct (row_gentle i f row Hf Hr) as (G & U & LM). destruct (row_knot _ _ M l j x v G ltac:(lia) E Hx Hv) as (y & Ey & Fy & Vy).
  assert (Fx : finite x) by (destruct G as (_ & FD & _); rewrite Forall_forall in FD; exact (FD x (nth_error_In _ _ Hx))). 
  assert (FI : forall i a, nth_error (su_times s) i = Some a -> finite a) by (intros k a A; rewrite Forall_forall in FT; eauto using nth_error_In).
  destruct (Nat.eq_dec i (length (su_times s) - 1)) as [Q|Q].
  - destruct (at_lt _ (su_times s) 0%nat ltac:(lia)) as (t0 & H0 & _). destruct (at_lt _ (su_times s) 1%nat ltac:(lia)) as (t1 & H1 & _). destruct (at_lt _ (su_times s) (length (su_times s) - 2)%nat ltac:(lia)) as (t8 & H8 & _).
    destruct (row_of 0%nat ltac:(lia)) as (? & ? & ? & l0 & _ & _ & _ & L0 & _). destruct (row_of 1%nat ltac:(lia)) as (? & ? & ? & l1 & _ & _ & _ & L1 & _). destruct (row_of (length (su_times s) - 2)%nat ltac:(lia)) as (? & ? & ? & l8 & _ & _ & _ & L8 & _).
    rewrite Q in Ht, Hl.
    destruct (c120_edges _ _ true XFlat _ t x t0 t1 t8 t l0 l1 l8 l bnew_of (finite_numbers _ FT) (strict_sorted fcmp _ ST) (finite_number t (FI _ _ Ht)) R1 H0 H1 H8 Ht L0 L1 L8 Hl) as (_ & _ & ED9 & _).
    exists y. split; [rewrite (ED9 eq_refl eq_refl (proj2 (fle_finite t t (FI _ _ Ht) (FI _ _ Ht)) (Rle_refl _))); exact Ey|auto].
  - destruct (row_of (i + 1)%nat ltac:(lia)) as (tj & f2 & row2 & l2 & Htj & Hf2 & Hr2 & Hl2 & E2). destruct (row_gentle _ f2 row2 Hf2 Hr2) as (G2 & U2 & LM2).
    destruct (row_close _ _ M l2 x G2 ltac:(lia) U2 E2 Fx) as (y2 & Ey2 & Fy2 & C2').
    pose proof (column_between (value x) _ (- M) M (nth_error_In _ _ (columns_nth (value x) _ tj f2 row2 Htj Hf2 Hr2)) grid_bounds) as BB. cbn [snd] in BB. pose proof M_pos as M0.
    assert (P80 : / 2 ^ 80 <= 1) by (rewrite <- Rinv_1; apply Rinv_le; lra). assert (P24 : 0 <= 12 * / 2 ^ 24 * M <= M) by (split; [apply Rmult_le_pos; lra|]; rewrite <- (Rmult_1_l M) at 2; apply Rmult_le_compat_r; lra).
    destruct pow60_100 as [Q61 Q61']. rewrite <- p100 in Q61'. assert (BV : - M <= value v <= M) by (pose proof grid_bounds as GB; rewrite Forall_forall in GB; pose proof (GB row (nth_error_In _ _ Hr)) as GR; rewrite Forall_forall in GR; exact (GR v (nth_error_In _ _ Hv))).
    rewrite Forall_forall in T1. pose proof (T1 t (nth_error_In _ _ Ht)) as [_ Ra]. pose proof (T1 tj (nth_error_In _ _ Htj)) as [_ Rb].
    destruct (c120_knots _ _ true XFlat _ i x t tj l l2 y y2 bnew_of FT ST Ht Htj Hl Hl2) as (z & Ez & Fz & Vz); try assumption.
    + change (value tj - value t <= 2 ^ 100). lra.
    + change (Rabs (value y) <= 2 ^ 100). rewrite Vy. apply Rabs_le. lra.
    + change (Rabs (value y2) <= 2 ^ 100). apply Rabs_le. apply Rabs_le_inv in C2'. lra.
    + exists z. split; [exact Ez|]. split; [exact Fz|]. rewrite <- Vy. exact Vz.
Qed.
End Built.

(** ** rows and surfaces of one value *)
Lemma zero_huge : Rabs 0 <= huge 128.
Proof. rewrite Rabs_R0, hug. apply bpow_ge_0. Qed.
Lemma diff_ok : forall a b : f32, finite a -> finite b -> value a < value b -> value b - value a <= two100 -> exists u, fn (gsub b a) u /\ u <> 0.
Proof.
  intros a b Fa Fb L U. destruct (sub_err b a _ _ (conj Fb eq_refl) (conj Fa eq_refl)) as (u & d & Fu & D & E); [apply two100_127; change (Rabs (value b - value a) <= two100 * 1000000); rewrite Rabs_pos_eq; pose proof two100_pos; lra|].
  exists u. split; [exact Fu|]. rewrite E. apply Rmult_integral_contrapositive_currified; [change (value b - value a <> 0); lra|]. apply Rabs_le_inv in D. unfold e24 in D. lra.
Qed.
Lemma plus_zero : forall u z : f32, finite u -> Rabs (value u) <= two100 -> fn z 0 -> finite (gadd u z) /\ value (gadd u z) = value u.
Proof.
  intros u z Fu Bu Z. pose proof (fin_add 24 128 u z _ _ (conj Fu eq_refl) Z) as D. rewrite Rplus_0_r in D.
  assert (HV : Rabs (B2R u) <= huge 128) by (rewrite hug; apply two100_127; unfold value in Bu; pose proof two100_pos; lra). specialize (D HV). rewrite (rnd_B2R 24 128) in D. exact D.
Qed.
Lemma same_zero : forall u w : f32, finite u -> finite w -> value w = value u -> fn (gsub w u) 0.
Proof.
  intros u w Fu Fw E. pose proof (fin_sub 24 128 w u _ _ (conj Fw eq_refl) (conj Fu eq_refl)) as A. unfold value in E. rewrite E in A. unfold Rminus in A. rewrite Rplus_opp_r in A. rewrite rnd_0 in A by exact p24. exact (A zero_huge).
Qed.
Lemma flat_line : forall u w a b x : f32, finite u -> finite w -> finite a -> finite b -> finite x -> value w = value u -> Rabs (value u) <= two100 -> value a < value b -> value b - value a <= two100 -> value a <= value x <= value b ->
  let y := gadd u (gmul (gdiv (gsub w u) (gsub b a)) (gsub x a)) in finite y /\ value y = value u.
Proof.
  intros u w a b x Fu Fw Fa Fb Fx E Bu L U X y. pose proof (same_zero u w Fu Fw E) as A. destruct (diff_ok a b Fa Fb L U) as (k & Fk & Nk).
  pose proof (fin_div 24 128 _ _ _ _ A Fk Nk) as C. unfold Rdiv in C. rewrite Rmult_0_l, rnd_0 in C by exact p24. specialize (C zero_huge).
  destruct (sub_err x a _ _ (conj Fx eq_refl) (conj Fa eq_refl)) as (r & d & Fr & _); [apply two100_127; change (Rabs (value x - value a) <= two100 * 1000000); rewrite Rabs_pos_eq; pose proof two100_pos; lra|].
  pose proof (fin_mul 24 128 _ _ _ _ C Fr) as D. rewrite Rmult_0_l, rnd_0 in D by exact p24. specialize (D zero_huge). exact (plus_zero u _ Fu Bu D).
Qed.
Lemma flat_blend : forall u w a b x : f32, finite u -> finite w -> finite a -> finite b -> finite x -> value w = value u -> Rabs (value u) <= two100 -> value a < value b -> value b - value a <= two100 -> value a <= value x <= value b ->
  let y := gadd u (gdiv (gmul (gsub x a) (gsub w u)) (gsub b a)) in finite y /\ value y = value u.
Proof.
  intros u w a b x Fu Fw Fa Fb Fx E Bu L U X y. pose proof (same_zero u w Fu Fw E) as A. destruct (diff_ok a b Fa Fb L U) as (k & Fk & Nk).
  destruct (sub_err x a _ _ (conj Fx eq_refl) (conj Fa eq_refl)) as (r & d & Fr & _); [apply two100_127; change (Rabs (value x - value a) <= two100 * 1000000); rewrite Rabs_pos_eq; pose proof two100_pos; lra|].
  pose proof (fin_mul 24 128 _ _ _ _ Fr A) as C. rewrite Rmult_0_r, rnd_0 in C by exact p24. specialize (C zero_huge).
  pose proof (fin_div 24 128 _ _ _ _ C Fk Nk) as D. unfold Rdiv in D. rewrite Rmult_0_l, rnd_0 in D by exact p24. specialize (D zero_huge). exact (plus_zero u _ Fu Bu D).
Qed.
Lemma const_row : forall d row M vol l x, gentle d row M -> (2 <= length d)%nat -> Forall (fun v => v = vol) row -> linear_new d row XFlat true = Ret (ROk l) -> finite x ->
  exists y, linear_interpolate l x = Ret (ROk y) /\ finite y /\ value y = value vol.
Proof.
  intros d row M vol l x (L & FD & SD & FV & HM & GE) L2 SAME E Fx. rewrite Forall_forall in SAME, FV.
  assert (AT : forall i, (i < length d)%nat -> nth_error row i = Some vol) by (intros i I; destruct (at_lt _ row i ltac:(lia)) as (v & Hv & _); rewrite Hv; f_equal; exact (SAME v (nth_error_In _ _ Hv))).
  destruct (FV vol (nth_error_In _ _ (AT 0%nat ltac:(lia)))) as [Fv Bv]. change real_of with value in *. rewrite p100 in HM.
  destruct (linear_new_cases d row XFlat true) as [(_ & Z)|[(_ & _ & Z)|[(_ & _ & _ & Z)|(_ & _ & _ & Z)]]]; rewrite E in Z; try discriminate Z. injection Z as ->. clear E.
  pose proof (finite_numbers d FD) as ND. pose proof (strict_sorted fcmp d SD) as SV. pose proof (finite_number x Fx) as Nx.
  destruct (at_lt _ d 0%nat ltac:(lia)) as (d0 & H0 & _). destruct (at_lt _ d (length d - 1)%nat ltac:(lia)) as (d9 & H9 & _).
  assert (FI : forall i a, nth_error d i = Some a -> finite a) by (intros i a A; rewrite Forall_forall in FD; eauto using nth_error_In).
  unfold linear_interpolate. cbn [l_domain].
  destruct (Rlt_or_le (value x) (value d0)) as [X0|X0]; [|destruct (Rlt_or_le (value x) (value d9)) as [X9|X9]].
  - rewrite (below_at d row XFlat true x d0 _ Nx H0 (proj2 (flt_finite x d0 Fx (FI _ _ H0)) X0)). rewrite (at_some _ _ _ _ (AT 0%nat ltac:(lia))). cbn [obind]. exists vol. auto.
  - pose proof (proj2 (fle_finite d0 x (FI _ _ H0) Fx) X0) as G0. pose proof (proj2 (flt_finite x d9 Fx (FI _ _ H9)) X9) as G9.
    rewrite (inside_at d row XFlat true ND x d0 d9 _ Nx H0 H9 G0 G9). destruct (bs_total fcmp d x ltac:(intro Q; rewrite Q in L2; cbn in L2; lia)) as (i & Ei & Li). rewrite Ei. cbn [obind].
    destruct (inside_index d ND SV x d0 d9 i Nx H0 H9 G0 G9 Ei) as (a & b & Ha & Hb & La & Lb). assert (Ib : (i + 1 < length d)%nat) by (apply nth_error_Some; congruence).
    rewrite (line_value d row XFlat true i a b vol vol x Ha Hb (AT i Li) (AT _ Ib)). eexists. split; [reflexivity|].
    destruct (GE i a b vol vol Ha Hb (AT i Li) (AT _ Ib)) as [W _]. rewrite p100 in W. pose proof (SD i (i + 1)%nat a b ltac:(lia) Ha Hb) as Q. apply flt_finite in Q; [|exact (FI _ _ Ha)|exact (FI _ _ Hb)].
    apply fle_finite in La; [|exact (FI _ _ Ha)|exact Fx]. apply fle_finite in Lb; [|exact Fx|exact (FI _ _ Hb)].
    apply flat_line; try assumption; [exact (FI _ _ Ha)|exact (FI _ _ Hb)|reflexivity|lra|]. split; [exact La|exact Lb].
  - rewrite (above_at d row XFlat true ND SV x d0 d9 _ Nx H0 H9 (proj2 (fle_finite d9 x (FI _ _ H9) Fx) X9)). rewrite (at_some _ _ _ _ (AT (length d - 1)%nat ltac:(lia))). cbn [obind]. exists vol. auto.
Qed.
Lemma laid_const : forall s fwds bi M vol t x, tame s fwds M -> laid s fwds bi ->
  Forall (Forall (fun v => v = vol)) (su_grid s) -> finite t -> finite x -> exists y, bilinear_interpolate bi t x = Ret (ROk y) /\ finite y /\ value y = value vol.
Proof.
  intros s fwds bi M vol t x T B SAME Ft Fx. destruct (times_ok s fwds M T) as [FT ST]. pose proof T as [[R1 [R2 R3]] [C1 C2] [T1 T2] _ _ [V1 V2]].
  assert (ROW : forall i, (i < length (su_times s))%nat -> exists ti l y, nth_error (su_times s) i = Some ti /\ nth_error (b_x bi) i = Some l /\ linear_interpolate l x = Ret (ROk y) /\ finite y /\ value y = value vol /\ Rabs (value vol) <= M).
  { intros i I. destruct (row_of s fwds M T bi B i I) as (ti & f & row & l & Ht & Hf & Hr & Hl & E). destruct (row_gentle s fwds M T i f row Hf Hr) as (G & U & LM). rewrite Forall_forall in SAME.
    destruct (const_row _ _ M vol l x G ltac:(lia) (SAME row (nth_error_In _ _ Hr)) E Fx) as (y & Ey & Fy & Vy). exists ti, l, y. split; [exact Ht|]. split; [exact Hl|]. split; [exact Ey|]. split; [exact Fy|]. split; [exact Vy|].
    rewrite Forall_forall in V1, C2. pose proof (V1 row (nth_error_In _ _ Hr)) as V. pose proof (C2 row (nth_error_In _ _ Hr)) as LR. pose proof (SAME row (nth_error_In _ _ Hr)) as SR. destruct row as [|v row]; [cbn in LR; lia|]. inversion V as [|? ? [_ Hv] _]; subst. inversion SR; subst. exact Hv. }
  destruct (ROW 0%nat ltac:(lia)) as (t0 & l0 & y0 & H0 & L0 & Y0 & F0 & D0 & BM). destruct (ROW 1%nat ltac:(lia)) as (t1 & l1 & y1 & H1 & L1 & _).
  destruct (ROW (length (su_times s) - 2)%nat ltac:(lia)) as (t8 & l8 & y8 & H8 & L8 & _). destruct (ROW (length (su_times s) - 1)%nat ltac:(lia)) as (t9 & l9 & y9 & H9 & L9 & Y9 & F9 & D9 & _).
  pose proof (bnew_of s fwds bi B) as BN.
  destruct (c120_edges _ _ true XFlat _ t x t0 t1 t8 t9 l0 l1 l8 l9 BN (finite_numbers _ FT) (strict_sorted fcmp _ ST) (finite_number t Ft) R1 H0 H1 H8 H9 L0 L1 L8 L9) as (_ & ED0 & ED9 & _).
  assert (FI : forall i a, nth_error (su_times s) i = Some a -> finite a) by (intros i a A; rewrite Forall_forall in FT; eauto using nth_error_In).
  destruct (Rlt_or_le (value t) (value t0)) as [X0|X0]; [|destruct (Rlt_or_le (value t) (value t9)) as [X9|X9]].
  - exists y0. split; [rewrite (ED0 eq_refl eq_refl (proj2 (flt_finite t t0 Ft (FI _ _ H0)) X0)); exact Y0|auto].
  - destruct (c120_inside _ _ true XFlat _ t x t0 t9 BN (finite_numbers _ FT) ST (finite_number t Ft) H0 H9 (proj2 (fle_finite t0 t (FI _ _ H0) Ft) X0) (proj2 (flt_finite t t9 Ft (FI _ _ H9)) X9))
      as (i & a & b & k1 & k2 & Ha & Hb & K1' & K2' & LA & LB & IN & _).
    assert (Ib : (i + 1 < length (su_times s))%nat) by (apply nth_error_Some; congruence).
    destruct (ROW i ltac:(lia)) as (a' & l1' & v1 & Ha' & Hl1 & Y1' & Fv1 & Q1 & _). destruct (ROW (i + 1)%nat Ib) as (b' & l2' & v2 & Hb' & Hl2 & Y2' & Fv2 & Q2 & _).
    assert (l1' = k1) by congruence. assert (l2' = k2) by congruence. subst l1' l2'.
    apply fle_finite in LA; [|exact (FI _ _ Ha)|exact Ft]. apply flt_finite in LB; [|exact Ft|exact (FI _ _ Hb)]. change (value a <= value t) in LA. change (value t < value b) in LB.
    rewrite Forall_forall in T1. pose proof (T1 a (nth_error_In _ _ Ha)) as [_ Ra]. pose proof (T1 b (nth_error_In _ _ Hb)) as [_ Rb]. destruct pow60_100 as [Q61 Q61'].
    destruct (flat_blend v1 v2 a b t Fv1 Fv2 (FI _ _ Ha) (FI _ _ Hb) Ft ltac:(congruence) ltac:(rewrite Q1; lra) ltac:(lra) ltac:(lra) ltac:(lra)) as [FF VV].
    eexists. split; [exact (IN v1 v2 Y1' Y2')|]. split; [exact FF|]. rewrite <- Q1. exact VV.
  - exists y9. split; [rewrite (ED9 eq_refl eq_refl (proj2 (fle_finite t9 t (FI _ _ H9) Ft) X9)); exact Y9|auto].
Qed.

(** ** a surface that was built *)
Lemma build_laid : forall e s s' fwds, forwards e (sticky_spot e s) s fwds -> vol_build e s = Ret (ROk s') -> laid s fwds (su_interp s').
Proof.
  intros e s s' fwds FW B. destruct (build_inv e s s' B) as (fs & ls & F & L & N & _). rewrite (forwards_unique _ _ _ _ _ F FW) in L. exists ls. auto.
Qed.
Lemma surface_close : forall e s s' fwds M, tame s fwds M -> forwards e (sticky_spot e s) s fwds -> vol_build e s = Ret (ROk s') -> forall t x, finite t -> finite x -> exists y, vol_at s' t x = Ret (ROk y) /\ finite y /\
  Rabs (value y - sheet (sheet_rows s fwds) (value t) (value x)) <= 25 * / 2 ^ 24 * M + / 2 ^ 70.
Proof. intros e s s' fwds M T F B. exact (laid_close s fwds M T _ (build_laid e s s' fwds F B)). Qed.
Lemma surface_knot : forall e s s' fwds M, tame s fwds M -> forwards e (sticky_spot e s) s fwds -> vol_build e s = Ret (ROk s') -> forall i j t f row m v,
  nth_error (su_times s) i = Some t -> nth_error fwds i = Some f -> nth_error (su_grid s) i = Some row -> nth_error (su_money s) j = Some m -> nth_error row j = Some v ->
  exists y, vol_at s' t (gdiv (gmul m (su_spot s)) f) = Ret (ROk y) /\ finite y /\ value y = value v.
Proof. intros e s s' fwds M T F B. exact (laid_knot s fwds M T _ (build_laid e s s' fwds F B)). Qed.
Lemma surface_const : forall e s s' fwds M vol t x, tame s fwds M -> forwards e (sticky_spot e s) s fwds -> vol_build e s = Ret (ROk s') ->
  Forall (Forall (fun v => v = vol)) (su_grid s) -> finite t -> finite x -> exists y, vol_at s' t x = Ret (ROk y) /\ finite y /\ value y = value vol.
Proof. intros e s s' fwds M vol t x T F B. exact (laid_const s fwds _ M vol t x T (build_laid e s s' fwds F B)). Qed.
