(** QLinProofs.v -- lemmas about linear interpolation. *)
From Coq Require Import ZArith Arith List Bool Lia Reals Lra.
From Flocq Require Import Core IEEE754.BinarySingleNaN.
From Verif Require Import Base FloatModel FloatFacts KrxModel QFindModel QFindSpec QFindProofs QFindProps QInterpModel QInterpSpec QInterpProofs QFloatErr.
Import ListNotations.
Open Scope nat_scope.

Lemma slopes_nth : forall d v i a b u w, nth_error d i = Some a -> nth_error d (i + 1) = Some b -> nth_error v i = Some u -> nth_error v (i + 1) = Some w ->
  nth_error (slopes d v) i = Some (gdiv (gsub w u) (gsub b a)).
Proof.
  induction d as [|x d IH]; intros v i a b u w Ha Hb Hu Hw; [destruct i; discriminate Ha|].
  destruct v as [|y v]; [destruct i; discriminate Hu|]. destruct d as [|x' d]; [destruct i as [|[|i]]; discriminate Hb|].
  destruct v as [|y' v]; [destruct i as [|[|i]]; discriminate Hw|].
  destruct i as [|i].
  - cbn in *. injection Ha as <-. injection Hb as <-. injection Hu as <-. injection Hw as <-. reflexivity.
  - change (slopes (x :: x' :: d) (y :: y' :: v)) with (gdiv (gsub y' y) (gsub x' x) :: slopes (x' :: d) (y' :: v)).
    cbn [nth_error]. apply IH; assumption.
Qed.
Lemma slopes_length : forall d v, length d = length v -> length (slopes d v) = length d - 1.
Proof.
  induction d as [|x d IH]; intros v L; [reflexivity|]. destruct v as [|y v]; [discriminate L|]. destruct d as [|x' d]; [destruct v; [reflexivity|discriminate L]|].
  destruct v as [|y' v]; [discriminate L|]. change (slopes (x :: x' :: d) (y :: y' :: v)) with (gdiv (gsub y' y) (gsub x' x) :: slopes (x' :: d) (y' :: v)).
  cbn [length]. rewrite (IH (y' :: v)) by (cbn in *; lia). cbn. lia.
Qed.

(** searching for a value that compares to nothing *)
Lemma bs_incomparable : forall T (cmp : T -> T -> option comparison) vec value, vec <> [] -> (forall y, In y vec -> cmp y value = None) -> binary_search_index cmp vec value = Ret 0.
Proof.
  intros T cmp vec value N H. assert (G : 0 < length vec) by (destruct vec; [congruence|cbn; lia]).
  assert (A : forall i, i < length vec -> exists y, at_ vec i = Ret y /\ o_eq cmp y value = false /\ o_lt cmp y value = false).
  { intros i Hi. destruct (at_lt _ vec i Hi) as (y & Hy & E). exists y. split; [exact E|]. apply nth_error_In in Hy. unfold o_eq, o_lt. rewrite (H y Hy). auto. }
  assert (S : forall fuel high, high < length vec -> high + 1 < fuel -> search_loop cmp fuel vec value 0 high = Ret (inr 0)).
  { induction fuel as [|k IH]; intros high Hh F; [lia|]. cbn [search_loop]. cbn [Nat.leb]. pose proof (mid_bounds 0 high ltac:(lia)) as M.
    set (mid := (0 + high) / 2) in *. clearbody mid. destruct (A mid ltac:(lia)) as (y & Y1 & Y2 & Y3). rewrite Y1. cbn [obind]. rewrite Y2, Y3.
    destruct (Nat.eqb_spec mid 0); [reflexivity|]. apply IH; lia. }
  unfold binary_search_index.
  assert (E : search_loop cmp (length vec + 1) vec value 0 (length vec - 1) = Ret (inr 0)).
  { destruct (Nat.eq_dec (length vec) 1) as [L1|L1].
    - rewrite L1. change (1 + 1) with 2. change (1 - 1) with 0. cbn [search_loop]. change (0 <=? 0) with true. change ((0 + 0) / 2) with 0. cbn iota. destruct (A 0 ltac:(lia)) as (y & Y1 & Y2 & Y3). rewrite Y1. cbn [obind]. rewrite Y2, Y3. reflexivity.
    - destruct (length vec + 1) as [|k] eqn:EK; [lia|]. cbn [search_loop Nat.leb]. pose proof (mid_bounds 0 (length vec - 1) ltac:(lia)) as M.
      assert (M2 : (0 + (length vec - 1)) / 2 < length vec - 1) by (apply Nat.div_lt; lia).
      set (mid := (0 + (length vec - 1)) / 2) in *. clearbody mid. destruct (A mid ltac:(lia)) as (y & Y1 & Y2 & Y3). rewrite Y1. cbn [obind]. rewrite Y2, Y3.
      destruct (Nat.eqb_spec mid 0); [reflexivity|]. apply S; lia. }
  rewrite E. cbn [obind]. destruct (Nat.ltb_spec (length vec - 1) 0); [lia|]. destruct (A 0 G) as (y & Y1 & Y2 & Y3). rewrite Y1. cbn [obind]. rewrite Y3. reflexivity.
Qed.
Lemma nan_compare : forall x y : f32, is_nan x = true -> fcmp y x = None.
Proof. intros x y H. destruct x; try discriminate H. destruct y as [[]|[]| |[] ? ? ?]; reflexivity. Qed.
Lemma nan_left : forall x y : f32, is_nan x = true -> fcmp x y = None.
Proof. intros x y H. destruct x; try discriminate H. destruct y as [[]|[]| |[] ? ? ?]; reflexivity. Qed.

(** an accepted interpolator *)
Lemma linear_new_cases : forall d v extra allow,
  (length d <> length v /\ linear_new d v extra allow = Ret RErr) \/
  (length d = length v /\ d = [] /\ linear_new d v extra allow = Panic) \/
  (length d = length v /\ d <> [] /\ (exists i a b, nth_error d i = Some a /\ nth_error d (i + 1) = Some b /\ fcmp a b = Some Gt) /\ linear_new d v extra allow = Ret RErr) \/
  (length d = length v /\ d <> [] /\ (forall i a b, nth_error d i = Some a -> nth_error d (i + 1) = Some b -> fcmp a b <> Some Gt) /\
   linear_new d v extra allow = Ret (ROk (Linear d v (slopes d v) extra allow))).
Proof.
  intros d v extra allow. unfold linear_new. destruct (Nat.eqb_spec (length d) (length v)) as [L|L]; cbn [negb]; [right|left; auto].
  destruct d as [|x d]; [left; auto|right]. cbn [is_ndarray_sorted obind]. destruct (sorted_from fcmp x d) eqn:E.
  - right. split; [exact L|]. split; [discriminate|]. split; [apply sorted_from_iff; exact E|reflexivity].
  - left. split; [exact L|]. split; [discriminate|]. split; [|reflexivity]. clear L. revert x E.
    induction d as [|y d IH]; intros x E; cbn [sorted_from] in E; [discriminate E|].
    unfold o_gt in E. destruct (fcmp x y) as [[]|] eqn:C.
    3:{ exists 0, x, y. auto. }
    all: destruct (IH y E) as (i & a & b & Ha & Hb & G); exists (S i), a, b; auto.
Qed.

Lemma line_answers : forall d v extra allow i j x, length d = length v -> i < length d -> j + 1 < length d -> exists r, line (Linear d v (slopes d v) extra allow) i j x = Ret r.
Proof.
  intros d v extra allow i j x L Hi Hj. unfold line. cbn [l_value l_slopes l_domain]. destruct (at_lt _ v i ltac:(lia)) as (u & _ & ->).
  destruct (at_lt _ (slopes d v) j ltac:(rewrite slopes_length by exact L; lia)) as (s & _ & ->). destruct (at_lt _ d i ltac:(lia)) as (a & _ & ->). cbn. eauto.
Qed.
Section Lin.
Variables (d v : list f32) (extra : extrapolation) (allow : bool).
Hypothesis (L : length d = length v) (ND : Forall number d) (SD : sorted fcmp d).
Notation l := (Linear d v (slopes d v) extra allow).
Lemma line_value : forall i a b u w x, nth_error d i = Some a -> nth_error d (i + 1) = Some b -> nth_error v i = Some u -> nth_error v (i + 1) = Some w ->
  line l i i x = Ret (ROk (gadd u (gmul (gdiv (gsub w u) (gsub b a)) (gsub x a)))).
Proof using d v extra allow.
  clear L. intros i a b u w x Ha Hb Hu Hw. unfold line. cbn [l_value l_slopes l_domain].
  rewrite (at_some _ _ _ _ Hu), (at_some _ _ _ _ (slopes_nth d v i a b u w Ha Hb Hu Hw)), (at_some _ _ _ _ Ha). reflexivity.
Qed.
(** inside the range the search gives an interval *)
Lemma inside_index : forall x d0 d9 i, number x -> nth_error d 0 = Some d0 -> nth_error d (length d - 1) = Some d9 -> le fcmp d0 x -> lt fcmp x d9 ->
  binary_search_index fcmp d x = Ret i ->
  exists a b, nth_error d i = Some a /\ nth_error d (i + 1) = Some b /\ le fcmp a x /\ le fcmp x b.
Proof using d ND SD.
  clear L. intros x d0 d9 i Nx H0 H9 G0 G9 E. assert (N : d <> []) by (intros ->; discriminate H0).
  destruct (bs_total fcmp d x N) as (i' & E' & Li). rewrite E in E'. injection E' as <-.
  pose proof (P_at number d ND _ _ H0) as P0. pose proof (P_at number d ND _ _ H9) as P9. destruct f_order as [F1 F2].
  assert (O : total_order fcmp number) by exact f_order.
  assert (NEXT : forall a, nth_error d i = Some a -> le fcmp a x -> i + 1 < length d).
  { intros a Ha LA. destruct (Nat.eq_dec i (length d - 1)) as [->|]; [exfalso|lia]. rewrite H9 in Ha. injection Ha as <-.
    exact (proj1 (lt_not_le fcmp number O x d9 Nx P9) G9 LA). }
  destruct (bs_found fcmp number O d x ND Nx SD i E) as [(a & Ha & A & B)|[(-> & a & Ha & A)|(a & Ha & A & B)]].
  - destruct (at_lt _ d (i + 1) (NEXT a Ha A)) as (b & Hb & _). exists a, b. split; [exact Ha|]. split; [exact Hb|]. split; [exact A|].
    pose proof (P_at number d ND _ _ Ha). pose proof (P_at number d ND _ _ Hb).
    apply (F2 x a b); try assumption. apply (SD i (i + 1)); [lia|exact Ha|exact Hb].
  - exfalso. rewrite H0 in Ha. injection Ha as <-. exact (proj1 (lt_not_le fcmp number O x d0 Nx P0) A G0).
  - destruct (at_lt _ d (i + 1) (NEXT a Ha (lt_le fcmp _ _ A))) as (b & Hb & _). exists a, b. split; [exact Ha|]. split; [exact Hb|]. split; [apply lt_le; exact A|]. apply lt_le, B, Hb.
Qed.
Lemma inside_at : forall x d0 d9 idx, number x -> nth_error d 0 = Some d0 -> nth_error d (length d - 1) = Some d9 -> le fcmp d0 x -> lt fcmp x d9 ->
  linear_at l x idx = let! i := idx in line l i i x.
Proof using d v extra allow ND.
  clear L SD. intros x d0 d9 idx Nx H0 H9 G0 G9. assert (N : d <> []) by (intros ->; discriminate H0). assert (G : 0 < length d) by (destruct d; [congruence|cbn; lia]).
  pose proof (P_at number d ND _ _ H0) as P0. pose proof (P_at number d ND _ _ H9) as P9. assert (O : total_order fcmp number) by exact f_order.
  unfold linear_at. cbn [l_domain]. rewrite (at_some _ _ _ _ H0). cbn [obind].
  assert (F0 : o_lt fcmp x d0 = false).
  { apply not_true_is_false. rewrite o_lt_iff. intro Q. exact (proj1 (lt_not_le fcmp number O x d0 Nx P0) Q G0). }
  rewrite F0. unfold minus_. destruct (Nat.leb_spec 1 (length d)); [|lia]. cbn [obind]. rewrite (at_some _ _ _ _ H9). cbn [obind].
  assert (F9 : o_ge fcmp x d9 = false).
  { apply not_true_is_false. rewrite (o_ge_iff fcmp number O x d9 Nx P9). intro Q. exact (proj1 (lt_not_le fcmp number O x d9 Nx P9) G9 Q). }
  rewrite F9. reflexivity.
Qed.
Lemma below_at : forall x d0 idx, number x -> nth_error d 0 = Some d0 -> lt fcmp x d0 ->
  linear_at l x idx = if allow then match extra with XFlat => let! y := at_ v 0 in Ret (ROk y) | XLinear => line l 0 0 x | XNone => Ret RErr end else Ret RErr.
Proof using d v extra allow.
  clear L. intros x d0 idx Nx H0 G0. unfold linear_at. cbn [l_domain l_allow l_extra l_value]. rewrite (at_some _ _ _ _ H0). cbn [obind].
  apply o_lt_iff in G0. rewrite G0. reflexivity.
Qed.
Lemma above_at : forall x d0 d9 idx, number x -> nth_error d 0 = Some d0 -> nth_error d (length d - 1) = Some d9 -> le fcmp d9 x ->
  linear_at l x idx = if allow then match extra with XFlat => let! y := at_ v (length d - 1) in Ret (ROk y) | XLinear => let! j := minus_ (length d) 2 in line l (length d - 1) j x | XNone => Ret RErr end else Ret RErr.
Proof using d v extra allow ND SD.
  clear L. intros x d0 d9 idx Nx H0 H9 G9. assert (N : d <> []) by (intros ->; discriminate H0). assert (G : 0 < length d) by (destruct d; [congruence|cbn; lia]).
  pose proof (P_at number d ND _ _ H0) as P0. pose proof (P_at number d ND _ _ H9) as P9. assert (O : total_order fcmp number) by exact f_order.
  unfold linear_at. cbn [l_domain l_allow l_extra l_value]. rewrite (at_some _ _ _ _ H0). cbn [obind].
  assert (F0 : o_lt fcmp x d0 = false).
  { apply not_true_is_false. rewrite o_lt_iff. intro Q. apply (proj1 (lt_not_le fcmp number O x d0 Nx P0) Q). apply (le_trans' fcmp number O d0 d9 x); try assumption.
    apply (below fcmp number O d ND SD 0 (length d - 1)); [lia|exact H0|exact H9]. }
  rewrite F0. unfold minus_ at 1. destruct (Nat.leb_spec 1 (length d)); [|lia]. cbn [obind]. rewrite (at_some _ _ _ _ H9). cbn [obind].
  rewrite (proj2 (o_ge_iff fcmp number O x d9 Nx P9) G9). reflexivity.
Qed.
End Lin.

(** ** An answer for every x, whatever the knots *)
(** the search gives the last index only if the last element is not above the value *)
Lemma search_loop_low : forall T (cmp : T -> T -> option comparison) vec value fuel low high r, search_loop cmp fuel vec value low high = Ret r ->
  (low = 0 \/ exists y, nth_error vec (low - 1) = Some y /\ o_lt cmp y value = true) ->
  match r with
  | inl i => exists y, nth_error vec i = Some y /\ o_eq cmp y value = true
  | inr k => k = 0 \/ exists y, nth_error vec (k - 1) = Some y /\ o_lt cmp y value = true
  end.
Proof.
  intros T cmp vec value. induction fuel as [|k IH]; intros low high r E H; [discriminate E|]. cbn [search_loop] in E.
  destruct (low <=? high); [|injection E as <-; exact H]. set (mid := (low + high) / 2) in *. clearbody mid.
  unfold at_ in E. destruct (nth_error vec mid) as [x|] eqn:X; cbn [obind] in E; [|discriminate E].
  destruct (o_eq cmp x value) eqn:EQ; [injection E as <-; eauto|]. destruct (o_lt cmp x value) eqn:LT.
  - apply IH in E; [exact E|]. right. exists x. rewrite Nat.add_sub. auto.
  - destruct (mid =? 0); [injection E as <-; exact H|]. apply IH in E; [exact E|exact H].
Qed.
Lemma bs_last : forall T (cmp : T -> T -> option comparison) vec value i, binary_search_index cmp vec value = Ret i -> 2 <= length vec -> i = length vec - 1 ->
  exists y, nth_error vec i = Some y /\ (o_eq cmp y value = true \/ o_lt cmp y value = true).
Proof.
  intros T cmp vec value i E L2 EI. unfold binary_search_index in E.
  destruct (search_loop cmp (length vec + 1) vec value 0 (length vec - 1)) as [r| |] eqn:ES; cbn [obind] in E; try discriminate E.
  destruct (search_loop_total cmp vec value (length vec + 1) 0 (length vec - 1)) as (r' & E' & R'); try lia. rewrite ES in E'. injection E' as <-.
  apply search_loop_low in ES; [|left; reflexivity]. destruct r as [mid|low].
  - injection E as <-. destruct ES as (y & Hy & Q). eauto.
  - destruct (Nat.ltb_spec (length vec - 1) low) as [G|G].
    + injection E as <-. destruct ES as [->|(y & Hy & Q)]; [lia|]. exists y. replace (length vec - 1) with (low - 1) by lia. auto.
    + unfold at_ in E. destruct (nth_error vec low) as [x|] eqn:X; cbn [obind] in E; [|discriminate E].
      destruct (o_lt cmp x value) eqn:LT; [injection E as <-; eauto|]. destruct (Nat.eqb_spec low 0); injection E as <-; lia.
Qed.
Lemma fcmp_sym : forall x y, fcmp y x = match fcmp x y with Some c => Some (CompOpp c) | None => None end.
Proof.
  intros x y. destruct (is_nan x) eqn:NX; [rewrite (nan_left x y NX), (nan_compare x y NX); reflexivity|].
  destruct (is_nan y) eqn:NY; [rewrite (nan_left y x NY), (nan_compare y x NY); reflexivity|].
  destruct (fcmp_swap x y NX NY) as (c & -> & ->). reflexivity.
Qed.
Lemma inside_next : forall d x d9 i, 2 <= length d -> nth_error d (length d - 1) = Some d9 -> o_ge fcmp x d9 = false -> binary_search_index fcmp d x = Ret i -> i + 1 < length d.
Proof.
  intros d x d9 i L2 H9 G E. assert (N : d <> []) by (intros ->; discriminate H9).
  destruct (bs_total fcmp d x N) as (i' & E' & Li). rewrite E in E'. injection E' as <-.
  destruct (Nat.eq_dec i (length d - 1)) as [EI|]; [exfalso|lia]. destruct (bs_last f32 fcmp d x i E L2 EI) as (y & Hy & Q).
  rewrite EI, H9 in Hy. assert (d9 = y) by congruence. subst y. unfold o_ge in G. unfold o_eq, o_lt in Q. rewrite (fcmp_sym x d9) in Q.
  destruct (fcmp x d9) as [[]|]; cbn in Q; destruct Q; congruence.
Qed.
Lemma linear_answers : forall d v extra allow x, length d = length v -> 2 <= length d -> exists r, linear_interpolate (Linear d v (slopes d v) extra allow) x = Ret r.
Proof.
  intros d v extra allow x L G. assert (N : d <> []) by (intros E; rewrite E in G; cbn in G; lia).
  destruct (at_lt _ d 0 ltac:(lia)) as (d0 & H0 & _). destruct (at_lt _ d (length d - 1) ltac:(lia)) as (d9 & H9 & _).
  unfold linear_interpolate, linear_at. cbn [l_domain l_allow l_extra l_value]. rewrite (at_some _ _ _ _ H0). cbn [obind].
  destruct (o_lt fcmp x d0).
  - destruct allow; [|eauto]. destruct extra; [eauto| |].
    + destruct (at_lt _ v 0 ltac:(lia)) as (y & _ & ->). cbn. eauto.
    + apply line_answers; [exact L|lia|lia].
  - unfold minus_ at 1. destruct (Nat.leb_spec 1 (length d)); [|lia]. cbn [obind]. rewrite (at_some _ _ _ _ H9). cbn [obind].
    destruct (o_ge fcmp x d9) eqn:G9.
    + destruct allow; [|eauto]. destruct extra; [eauto| |].
      * destruct (at_lt _ v (length d - 1) ltac:(lia)) as (y & _ & ->). cbn. eauto.
      * unfold minus_. destruct (Nat.leb_spec 2 (length d)); [|lia]. cbn [obind]. apply line_answers; [exact L|lia|lia].
    + destruct (bs_total fcmp d x N) as (i & E & Li). rewrite E. cbn [obind].
      pose proof (inside_next d x d9 i G H9 G9 E). apply line_answers; [exact L|lia|lia].
Qed.
