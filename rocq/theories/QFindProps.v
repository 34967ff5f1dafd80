(** QFindProps.v -- searching sorted arrays: the properties (C108, C109). *)
From Coq Require Import ZArith Arith List Bool Lia.
From Verif Require Import Base QFindModel QFindSpec QFindProofs.
Import ListNotations.
Open Scope nat_scope.

(** integers *)
Definition z_cmp (x y : Z) : option comparison := Some (x ?= y)%Z.
Lemma z_order : total_order z_cmp (fun _ => True).
Proof.
  split.
  - intros x y _ _. exists (x ?= y)%Z. unfold z_cmp. split; [reflexivity|]. rewrite <- Z.compare_antisym. reflexivity.
  - intros x y z _ _ _ A B. unfold le, z_cmp in *.
    assert (X : (x <= y)%Z) by (unfold Z.le; intro X0; destruct A as [A|A]; congruence).
    assert (Y : (y <= z)%Z) by (unfold Z.le; intro X0; destruct B as [B|B]; congruence).
    destruct (Z.eq_dec x z) as [->|]; [right; rewrite Z.compare_refl; reflexivity|left; f_equal; apply Z.compare_lt_iff; lia].
Qed.
Definition knots : list Z := [1; 3; 6; 9; 11]%Z.
Lemma knots_sorted : strictly_sorted z_cmp knots.
Proof.
  intros i j x y L Hx Hy. assert (j < 5) by (change 5 with (length knots); apply nth_error_Some; congruence).
  unfold lt, z_cmp. f_equal. apply Z.compare_lt_iff.
  destruct j as [|[|[|[|[|j]]]]]; try lia; destruct i as [|[|[|[|i]]]]; try lia; cbn in Hx, Hy; injection Hx as <-; injection Hy as <-; lia.
Qed.

(** ** C108: binary search *)
(** whatever the comparison (even with incomparable values) and the order of the
    elements: an index within the array *)
Theorem c108_answers : forall T (cmp : T -> T -> option comparison) vec value, vec <> [] ->
  exists i, binary_search_index cmp vec value = Ret i /\ i < length vec.
Proof. intros T cmp vec value N. exact (bs_total cmp vec value N). Qed.
Theorem c108_empty : forall T (cmp : T -> T -> option comparison) value, binary_search_index cmp [] value = Panic.
Proof. intros. reflexivity. Qed.
(** strictly sorted: the documented index, which is unique *)
Theorem c108_place : forall T (cmp : T -> T -> option comparison) P vec value, total_order cmp P -> Forall P vec -> P value -> vec <> [] -> strictly_sorted cmp vec ->
  exists i, binary_search_index cmp vec value = Ret i /\ place cmp vec value i /\ forall j, place cmp vec value j -> j = i.
Proof.
  intros T cmp P vec value O PV Pv N S. destruct (bs_total cmp vec value N) as (i & E & _). exists i. split; [exact E|].
  pose proof (bs_place cmp P O vec value PV Pv (strict_sorted cmp vec S) S i E) as PL. split; [exact PL|].
  intros j Hj. exact (place_unique cmp P O vec value j i PV Pv S Hj PL).
Qed.
(** sorted with repetitions: the documented inequalities, the second not strict *)
Theorem c108_sorted_partial : forall T (cmp : T -> T -> option comparison) P vec value a, total_order cmp P -> Forall P vec -> P value -> sorted cmp vec ->
  nth_error vec 0 = Some a ->
  exists i x, binary_search_index cmp vec value = Ret i /\ nth_error vec i = Some x /\
    (lt cmp value a -> i = 0) /\ (le cmp a value -> le cmp x value) /\ (forall y, nth_error vec (i + 1) = Some y -> le cmp value y).
Proof.
  intros T cmp P vec value a O PV Pv S Ha. assert (N : vec <> []) by (intros ->; discriminate Ha).
  destruct (bs_total cmp vec value N) as (i & E & L). destruct (at_lt _ vec i L) as (x & Hx & _). exists i, x. split; [exact E|]. split; [exact Hx|].
  pose proof (P_at P vec PV _ _ Ha) as Pa. pose proof (P_at P vec PV _ _ Hx) as Px.
  destruct (bs_found cmp P O vec value PV Pv S i E) as [(y & Hy & A & B)|[(-> & y & Hy & A)|(y & Hy & A & B)]].
  - rewrite Hx in Hy. injection Hy as <-. split; [|split].
    + intro LT. exfalso. apply (proj1 (lt_not_le cmp P O value a Pv Pa) LT). apply (le_trans' cmp P O a x value); try assumption.
      apply (below cmp P O vec PV S 0 i); [lia|exact Ha|exact Hx].
    + intros _. exact A.
    + intros y Hy. apply (le_trans' cmp P O value x y); try assumption; [exact (P_at P vec PV _ _ Hy)|]. apply (below cmp P O vec PV S i (i + 1)); [lia|exact Hx|exact Hy].
  - rewrite Hy in Ha. injection Ha as <-. rewrite Hy in Hx. injection Hx as <-. split; [reflexivity|]. split.
    + intro C. exfalso. apply (proj1 (lt_not_le cmp P O value y Pv Pa) A). exact C.
    + intros z Hz. pose proof (P_at P vec PV _ _ Hz) as Pz. apply (le_trans' cmp P O value y z); try assumption; [apply lt_le; exact A|].
      apply (below cmp P O vec PV S 0 1); [lia|exact Hy|exact Hz].
  - rewrite Hx in Hy. injection Hy as <-. split; [|split].
    + intro LT. exfalso. apply (proj1 (lt_not_le cmp P O value a Pv Pa) LT). apply (le_trans' cmp P O a x value); try assumption; [|apply lt_le; exact A].
      apply (below cmp P O vec PV S 0 i); [lia|exact Ha|exact Hx].
    + intros _. apply lt_le. exact A.
    + intros y Hy. apply lt_le. apply B. exact Hy.
Qed.
Example c108_hypotheses_met : total_order z_cmp (fun _ => True) /\ strictly_sorted z_cmp knots /\
  map (binary_search_index z_cmp knots) [0; 1; 5; 9; 10; 11; 12]%Z = [Ret 0; Ret 0; Ret 1; Ret 3; Ret 3; Ret 4; Ret 4].
Proof. split; [exact z_order|]. split; [exact knots_sorted|reflexivity]. Qed.
(** REFUTED for repeated elements: neither value < v[i+1] nor "the last index" *)
Theorem c108_repeated_refuted : sorted z_cmp [1; 1]%Z /\ binary_search_index z_cmp [1; 1]%Z 1%Z = Ret 0 /\ ~ place z_cmp [1; 1]%Z 1%Z 0.
Proof.
  split; [|split; [reflexivity|]].
  - intros i j x y L Hx Hy. assert (j < 2) by (change 2 with (length [1; 1]%Z); apply nth_error_Some; congruence).
    destruct j as [|[|j]]; try lia. destruct i as [|i]; try lia. cbn in *. injection Hx as <-. injection Hy as <-. right. reflexivity.
  - intros (_ & _ & A & _). specialize (A 1%Z eq_refl (or_intror eq_refl)). discriminate A.
Qed.

(** ** C109: the vectorized search *)
Lemma map_out_length : forall A B (f : A -> outcome B) l rs, map_out f l = Ret rs -> length rs = length l.
Proof.
  intros A B f. induction l as [|x l IH]; intros rs H; cbn [map_out] in H; [injection H as <-; reflexivity|].
  destruct (f x); cbn [obind] in H; try discriminate H. destruct (map_out f l) as [ys| |] eqn:E; cbn [obind] in H; try discriminate H.
  injection H as <-. cbn. rewrite (IH ys eq_refl). reflexivity.
Qed.
Lemma map_out_total : forall A B (f : A -> outcome B) (Q : A -> B -> Prop) l, (forall x, In x l -> exists y, f x = Ret y /\ Q x y) -> exists rs, map_out f l = Ret rs /\ Forall2 Q l rs.
Proof.
  intros A B f Q. induction l as [|x l IH]; intro H; cbn [map_out]; [eexists; split; [reflexivity|constructor]|].
  destruct (H x (or_introl eq_refl)) as (y & -> & q). cbn [obind]. destruct (IH (fun z Hz => H z (or_intror Hz))) as (rs & -> & F). cbn [obind].
  eexists. split; [reflexivity|]. constructor; assumption.
Qed.
(** whatever the arguments (sorted or not, comparable or not): indices within the array *)
Theorem c109_answers : forall T (cmp : T -> T -> option comparison) vec search, vec <> [] ->
  exists rs, vectorized_search_index cmp vec search = Ret rs /\ length rs = length search /\ Forall (fun r => r < length vec) rs.
Proof.
  intros T cmp vec search N.
  assert (S : exists rs, map_out (binary_search_index cmp vec) search = Ret rs /\ length rs = length search /\ Forall (fun r => r < length vec) rs).
  { destruct (map_out_total _ _ (binary_search_index cmp vec) (fun _ r => r < length vec) search) as (rs & E & F).
    - intros x _. exact (bs_total cmp vec x N).
    - exists rs. split; [exact E|]. split; [exact (map_out_length _ _ _ _ _ E)|]. clear - F. induction F; constructor; auto. }
  unfold vectorized_search_index. destruct search as [|s0 [|s1 [|s2 search]]]; [exact S|exact S|exact S|clear S].
  destruct (bs_total cmp vec s0 N) as (first & -> & L0). cbn [obind].
  destruct (bs_total cmp vec (List.last (s0 :: s1 :: s2 :: search) s0) N) as (last & -> & L9). cbn [obind].
  apply scan_all_total; auto.
Qed.
Theorem c109_empty : forall T (cmp : T -> T -> option comparison) search, vectorized_search_index cmp [] search = match search with [] => Ret [] | _ => Panic end.
Proof. intros T cmp [|s0 [|s1 [|s2 search]]]; reflexivity. Qed.
(** sorted arguments: the same as searching for each value *)
Lemma last_nth : forall T (l : list T) s d, nth_error (s :: l) (length (s :: l) - 1) = Some (List.last (s :: l) d).
Proof.
  intros T l. induction l as [|y l IH]; intros s d; [reflexivity|]. specialize (IH y d).
  replace (length (s :: y :: l) - 1) with (S (length (y :: l) - 1)) by (cbn; lia). exact IH.
Qed.
Lemma last_In : forall T (l : list T) s d, In (List.last (s :: l) d) (s :: l).
Proof. intros T l s d. eapply nth_error_In. apply last_nth. Qed.
Lemma sorted_last : forall T (cmp : T -> T -> option comparison) (P : T -> Prop), total_order cmp P -> forall s l, Forall P (s :: l) -> sorted cmp (s :: l) -> Forall (fun x => le cmp x (List.last (s :: l) s)) (s :: l).
Proof.
  intros T cmp P O s l PS SO. apply Forall_forall. intros x Hx. apply In_nth_error in Hx. destruct Hx as [i Hi].
  assert (L : i < length (s :: l)) by (apply nth_error_Some; congruence).
  pose proof (last_nth T l s s) as E.
  destruct (Nat.eq_dec i (length (s :: l) - 1)) as [Q|Q].
  - rewrite Q, E in Hi. injection Hi as <-. apply (le_refl' cmp P O). rewrite Forall_forall in PS. apply PS. apply nth_error_In with (length (s :: l) - 1). exact E.
  - apply (SO i (length (s :: l) - 1)); [lia|exact Hi|exact E].
Qed.
Theorem c109_same : forall T (cmp : T -> T -> option comparison) P vec search, total_order cmp P -> Forall P vec -> Forall P search -> vec <> [] ->
  strictly_sorted cmp vec -> sorted cmp search ->
  exists rs, vectorized_search_index cmp vec search = Ret rs /\ map_out (binary_search_index cmp vec) search = Ret rs /\ Forall2 (place cmp vec) search rs.
Proof.
  intros T cmp P vec search O PV PS N SS SO.
  assert (M : exists rs, map_out (binary_search_index cmp vec) search = Ret rs /\ Forall2 (place cmp vec) search rs).
  { apply map_out_total. intros x Hx. destruct (bs_total cmp vec x N) as (i & E & _). exists i. split; [exact E|].
    apply (bs_place cmp P O); try assumption; [rewrite Forall_forall in PS; auto|apply strict_sorted; exact SS]. }
  destruct M as (rs & M & FM). exists rs. split; [|split; assumption].
  unfold vectorized_search_index. destruct search as [|s0 [|s1 [|s2 search]]]; [exact M|exact M|exact M|].
  set (sv := s0 :: s1 :: s2 :: search) in *. set (s9 := List.last sv s0).
  assert (P0 : P s0) by (inversion PS; assumption).
  pose proof (sorted_last T cmp P O s0 (s1 :: s2 :: search) PS SO) as SL. fold sv in SL. fold s9 in SL.
  assert (P9 : P s9).
  { rewrite Forall_forall in PS. apply PS. apply last_In. }
  destruct (bs_total cmp vec s0 N) as (first & E0 & L0). destruct (bs_total cmp vec s9 N) as (last & E9 & L9).
  rewrite E0. cbn [obind]. fold s9. rewrite E9. cbn [obind].
  assert (SV := strict_sorted cmp vec SS).
  destruct (scan_all_found cmp P O vec PV SS first last s0 s9 sv first P0 P9 PS E0 E9) as (rs' & E' & F').
  - apply Forall_forall. intros x Hx. split; [|rewrite Forall_forall in SL; auto].
    apply In_nth_error in Hx. destruct Hx as [i Hi]. destruct i as [|i]; [cbn in Hi; injection Hi as <-; apply (le_refl' cmp P O); exact P0|].
    apply (SO 0 (S i)); [lia|reflexivity|exact Hi].
  - exact SO.
  - (* the first place is not after the last *)
    assert (LE : le cmp s0 s9) by (rewrite Forall_forall in SL; apply SL; left; reflexivity).
    pose proof (bs_place cmp P O vec s9 PV P9 SV SS last E9) as F9.
    destruct (bs_found cmp P O vec s0 PV P0 SV first E0) as [(x & Hx & A & B)|[(-> & _)|(x & Hx & A & B)]]; [|lia|].
    + destruct (Nat.le_gt_cases first last) as [|G]; [assumption|exfalso]. destruct F9 as (_ & F1 & F2 & F3).
      destruct (at_lt _ vec 0 ltac:(lia)) as (v0 & H0 & _). destruct (at_lt _ vec (length vec - 1) ltac:(lia)) as (v9 & H9 & _).
      pose proof (P_at P vec PV _ _ Hx) as Px. pose proof (P_at P vec PV _ _ H0) as Pv0. pose proof (P_at P vec PV _ _ H9) as Pv9.
      assert (X9 : le cmp x s9) by (apply (le_trans' cmp P O x s0 s9); assumption).
      destruct (le_or_lt cmp P O v9 s9 Pv9 P9) as [C|C]; [specialize (F2 v9 H9 C); lia|].
      assert (C0 : le cmp v0 s9) by (apply (le_trans' cmp P O v0 x s9); try assumption; apply (below cmp P O vec PV SV 0 first); [lia|exact H0|exact Hx]).
      destruct (F3 v0 v9 H0 H9 C0 C) as (y & z & Hy & Hz & Y1 & Y2). pose proof (P_at P vec PV _ _ Hz) as Pz.
      apply (proj1 (lt_not_le cmp P O s9 z P9 Pz) Y2). apply (le_trans' cmp P O z x s9); try assumption.
      apply (below cmp P O vec PV SV (last + 1) first); [lia|exact Hz|exact Hx].
    + destruct (Nat.le_gt_cases first last) as [|G]; [assumption|exfalso]. destruct F9 as (_ & F1 & F2 & F3).
      destruct (at_lt _ vec 0 ltac:(lia)) as (v0 & H0 & _). destruct (at_lt _ vec (length vec - 1) ltac:(lia)) as (v9 & H9 & _).
      pose proof (P_at P vec PV _ _ Hx) as Px. pose proof (P_at P vec PV _ _ H0) as Pv0. pose proof (P_at P vec PV _ _ H9) as Pv9.
      assert (X9 : le cmp x s9) by (apply (le_trans' cmp P O x s0 s9); try assumption; apply lt_le; exact A).
      destruct (le_or_lt cmp P O v9 s9 Pv9 P9) as [C|C]; [specialize (F2 v9 H9 C); lia|].
      assert (C0 : le cmp v0 s9) by (apply (le_trans' cmp P O v0 x s9); try assumption; apply (below cmp P O vec PV SV 0 first); [lia|exact H0|exact Hx]).
      destruct (F3 v0 v9 H0 H9 C0 C) as (y & z & Hy & Hz & Y1 & Y2). pose proof (P_at P vec PV _ _ Hz) as Pz.
      apply (proj1 (lt_not_le cmp P O s9 z P9 Pz) Y2). apply (le_trans' cmp P O z x s9); try assumption.
      apply (below cmp P O vec PV SV (last + 1) first); [lia|exact Hz|exact Hx].
  - (* no place lies before the first *)
    apply Forall_forall. intros s Hs k x y Hx Hy LX LY.
    assert (Ps : P s) by (rewrite Forall_forall in PS; auto).
    assert (LE : le cmp s0 s).
    { apply In_nth_error in Hs. destruct Hs as [i Hi]. destruct i as [|i]; [cbn in Hi; injection Hi as <-; apply (le_refl' cmp P O); exact P0|].
      apply (SO 0 (S i)); [lia|reflexivity|exact Hi]. }
    destruct (Nat.le_gt_cases first k) as [|G]; [assumption|exfalso].
    pose proof (P_at P vec PV _ _ Hy) as Py.
    destruct (bs_found cmp P O vec s0 PV P0 SV first E0) as [(z & Hz & A & B)|[(-> & _)|(z & Hz & A & B)]]; [|lia|];
      pose proof (P_at P vec PV _ _ Hz) as Pz; apply (proj1 (lt_not_le cmp P O s y Ps Py) LY); apply (le_trans' cmp P O y s0 s); try assumption;
      apply (le_trans' cmp P O y z s0); try assumption; try (apply (below cmp P O vec PV SV (k + 1) first); [lia|exact Hy|exact Hz]). apply lt_le; exact A.
  - rewrite E'. f_equal. clear - O PV PS SS FM F'.
    revert rs FM F' PS. generalize sv. intro l. revert rs'. induction l as [|x l IH]; intros rs' rs FM F' PS.
    + inversion FM; subst. inversion F'; subst. reflexivity.
    + inversion FM; subst. inversion F'; subst. inversion PS; subst. f_equal; [|apply IH; assumption].
      apply (place_unique cmp P O vec x); assumption.
Qed.
Example c109_hypotheses_met : sorted z_cmp [0; 0; 5; 9; 20]%Z /\ vectorized_search_index z_cmp knots [0; 0; 5; 9; 20]%Z = Ret [0; 0; 1; 3; 4].
Proof.
  split; [|reflexivity]. intros i j x y L Hx Hy. assert (j < 5) by (change 5 with (length [0; 0; 5; 9; 20]%Z); apply nth_error_Some; congruence).
  destruct j as [|[|[|[|[|j]]]]]; try lia; destruct i as [|[|[|[|i]]]]; try lia; cbn in Hx, Hy; injection Hx as <-; injection Hy as <-; unfold le; cbn; auto.
Qed.
(** REFUTED without the hypotheses: values out of order, repeated elements *)
Theorem c109_unsorted_refuted :
  (vectorized_search_index z_cmp knots [3; 8; 4; 11]%Z = Ret [1; 2; 0; 4] /\ map_out (binary_search_index z_cmp knots) [3; 8; 4; 11]%Z = Ret [1; 2; 1; 4]) /\
  (sorted z_cmp [1; 2; 2; 3]%Z /\ sorted z_cmp [1; 2; 3]%Z /\
   vectorized_search_index z_cmp [1; 2; 2; 3]%Z [1; 2; 3]%Z = Ret [0; 2; 3] /\ map_out (binary_search_index z_cmp [1; 2; 2; 3]%Z) [1; 2; 3]%Z = Ret [0; 1; 3]).
Proof.
  split; [split; reflexivity|]. split; [|split; [|split; reflexivity]]; intros i j x y L Hx Hy.
  - assert (j < 4) by (change 4 with (length [1; 2; 2; 3]%Z); apply nth_error_Some; congruence).
    destruct j as [|[|[|[|j]]]]; try lia; destruct i as [|[|[|i]]]; try lia; cbn in Hx, Hy; injection Hx as <-; injection Hy as <-; unfold le; cbn; auto.
  - assert (j < 3) by (change 3 with (length [1; 2; 3]%Z); apply nth_error_Some; congruence).
    destruct j as [|[|[|j]]]; try lia; destruct i as [|[|i]]; try lia; cbn in Hx, Hy; injection Hx as <-; injection Hy as <-; unfold le; cbn; auto.
Qed.
Print Assumptions c108_answers.
Print Assumptions c108_empty.
Print Assumptions c108_place.
Print Assumptions c108_sorted_partial.
Print Assumptions c108_repeated_refuted.
Print Assumptions c109_answers.
Print Assumptions c109_empty.
Print Assumptions c109_same.
Print Assumptions c109_unsorted_refuted.
