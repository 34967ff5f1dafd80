(** QFindProofs.v -- lemmas about searching. *)
From Coq Require Import ZArith Arith List Bool Lia.
From Verif Require Import Base QFindModel QFindSpec.
Import ListNotations.
Open Scope nat_scope.

Section Proofs.
Context {T : Type} (cmp : T -> T -> option comparison).
Notation bs := (binary_search_index cmp).

Lemma at_lt : forall A (v : list A) i, i < length v -> exists x, nth_error v i = Some x /\ at_ v i = Ret x.
Proof.
  intros A v i H. unfold at_. destruct (nth_error v i) as [x|] eqn:E; [eauto|]. apply nth_error_None in E. lia.
Qed.
Lemma at_some : forall A (v : list A) i x, nth_error v i = Some x -> at_ v i = Ret x.
Proof. intros A v i x E. unfold at_. rewrite E. reflexivity. Qed.

(** ** It always answers, whatever the comparison *)
Lemma mid_bounds : forall low high, low <= high -> low <= (low + high) / 2 <= high.
Proof. intros low high H. split; [apply Nat.div_le_lower_bound; lia|apply Nat.div_le_upper_bound; lia]. Qed.
Lemma search_loop_total : forall vec value fuel low high, high < length vec -> high + 1 - low < fuel -> low <= high + 1 ->
  exists r, search_loop cmp fuel vec value low high = Ret r /\ match r with inl i => i < length vec | inr l => l <= length vec end.
Proof.
  intros vec value. induction fuel as [|k IH]; intros low high H F L; [lia|]. cbn [search_loop].
  destruct (Nat.leb_spec low high) as [G|G]; [|eexists; split; [reflexivity|cbn; lia]].
  pose proof (mid_bounds low high G) as M. set (mid := (low + high) / 2) in *. clearbody mid.
  destruct (at_lt _ vec mid ltac:(lia)) as (x & _ & ->). cbn [obind].
  destruct (o_eq cmp x value); [eexists; split; [reflexivity|cbn; lia]|]. destruct (o_lt cmp x value); [apply IH; lia|].
  destruct (Nat.eqb_spec mid 0); [eexists; split; [reflexivity|cbn; lia]|apply IH; lia].
Qed.
Lemma bs_total : forall vec value, vec <> [] -> exists i, bs vec value = Ret i /\ i < length vec.
Proof.
  intros vec value N. assert (P : 0 < length vec) by (destruct vec; [congruence|cbn; lia]).
  unfold binary_search_index. destruct (search_loop_total vec value (length vec + 1) 0 (length vec - 1)) as (r & -> & R); try lia.
  cbn [obind]. destruct r as [i|low]; [eauto|].
  destruct (Nat.ltb_spec (length vec - 1) low) as [L|L]; [eexists; split; [reflexivity|lia]|].
  destruct (at_lt _ vec low ltac:(lia)) as (x & _ & ->). cbn [obind]. eexists. split; [reflexivity|].
  destruct (o_lt cmp x value); [lia|]. destruct (low =? 0); lia.
Qed.
Lemma bs_empty : forall value, bs [] value = Panic.
Proof. reflexivity. Qed.

(** ** Orders *)
Variable P : T -> Prop.
Hypothesis HO : total_order cmp P.
Notation lt := (lt cmp).
Notation le := (le cmp).
Lemma le_trans' : forall x y z, P x -> P y -> P z -> le x y -> le y z -> le x z.
Proof. apply HO. Qed.
Lemma lt_not_le : forall x y, P x -> P y -> (lt x y <-> ~ le y x).
Proof.
  intros x y Px Py. destruct (proj1 HO x y Px Py) as (c & E1 & E2). unfold QFindSpec.lt, QFindSpec.le. rewrite E1, E2.
  destruct c; cbn; split; intro H; try congruence; try (intros [X|X]; discriminate X); exfalso; apply H; auto.
Qed.
Lemma le_or_lt : forall x y, P x -> P y -> le x y \/ lt y x.
Proof.
  intros x y Px Py. destruct (proj1 HO x y Px Py) as (c & E1 & E2). unfold QFindSpec.lt, QFindSpec.le. rewrite E1, E2. destruct c; auto.
Qed.
Lemma lt_le : forall x y, lt x y -> le x y.
Proof. intros x y H. left. exact H. Qed.
Lemma le_refl' : forall x, P x -> le x x.
Proof. intros x Px. destruct (proj1 HO x x Px Px) as (c & E1 & E2). rewrite E1 in E2. right. rewrite E1. destruct c; cbn in E2; congruence. Qed.
Lemma lt_le_trans' : forall x y z, P x -> P y -> P z -> lt x y -> le y z -> lt x z.
Proof.
  intros x y z Px Py Pz A B. apply lt_not_le; try assumption. intro C. apply (proj1 (lt_not_le x y Px Py) A). apply (le_trans' y z x); assumption.
Qed.
Lemma le_lt_trans' : forall x y z, P x -> P y -> P z -> le x y -> lt y z -> lt x z.
Proof.
  intros x y z Px Py Pz A B. apply lt_not_le; try assumption. intro C. apply (proj1 (lt_not_le y z Py Pz) B). apply (le_trans' z x y); assumption.
Qed.
Lemma o_lt_iff : forall x y, o_lt cmp x y = true <-> lt x y.
Proof. intros x y. unfold o_lt, QFindSpec.lt. destruct (cmp x y) as [[]|]; split; congruence. Qed.
Lemma o_eq_iff : forall x y, P x -> P y -> (o_eq cmp x y = true <-> le x y /\ le y x).
Proof.
  intros x y Px Py. destruct (proj1 HO x y Px Py) as (c & E1 & E2). unfold o_eq, QFindSpec.le. rewrite E1, E2.
  destruct c; cbn; split; try congruence; auto; intros [[X|X] [Y|Y]]; discriminate.
Qed.
Lemma o_ge_iff : forall x y, P x -> P y -> (o_ge cmp x y = true <-> le y x).
Proof.
  intros x y Px Py. destruct (proj1 HO x y Px Py) as (c & E1 & E2). unfold o_ge, QFindSpec.le. rewrite E1, E2.
  destruct c; cbn; split; try congruence; auto; intros [X|X]; discriminate.
Qed.
Lemma o_gt_iff : forall x y, P x -> P y -> (o_gt cmp x y = true <-> lt y x).
Proof.
  intros x y Px Py. destruct (proj1 HO x y Px Py) as (c & E1 & E2). unfold o_gt, QFindSpec.lt. rewrite E1, E2.
  destruct c; cbn; split; congruence.
Qed.

(** ** The search in a sorted array *)
Section Search.
Variables (vec : list T) (value : T).
Hypothesis (PV : Forall P vec) (Pv : P value) (SV : sorted cmp vec).
Lemma P_at : forall i x, nth_error vec i = Some x -> P x.
Proof. intros i x H. apply nth_error_In in H. rewrite Forall_forall in PV. auto. Qed.
Lemma below : forall i j x y, i <= j -> nth_error vec i = Some x -> nth_error vec j = Some y -> le x y.
Proof.
  intros i j x y H Hx Hy. destruct (Nat.eq_dec i j) as [->|]; [|apply (SV i j); [lia|exact Hx|exact Hy]].
  rewrite Hx in Hy. injection Hy as <-. apply le_refl'. exact (P_at _ _ Hx).
Qed.
(** the answer: the element equals the value, or it is the last one below it *)
Definition found (i : nat) : Prop :=
  (exists x, nth_error vec i = Some x /\ le x value /\ le value x) \/
  (i = 0 /\ exists x, nth_error vec 0 = Some x /\ lt value x) \/
  (exists x, nth_error vec i = Some x /\ lt x value /\ forall y, nth_error vec (i + 1) = Some y -> lt value y).

Lemma search_loop_found : forall fuel low high r, high < length vec -> low <= high + 1 ->
  (forall i x, i < low -> nth_error vec i = Some x -> lt x value) ->
  (forall i x, high < i -> nth_error vec i = Some x -> lt value x) ->
  search_loop cmp fuel vec value low high = Ret r ->
  match r with
  | inl i => exists x, nth_error vec i = Some x /\ le x value /\ le value x
  | inr l => (forall i x, i < l -> nth_error vec i = Some x -> lt x value) /\ (forall i x, l <= i -> nth_error vec i = Some x -> lt value x)
  end.
Proof.
  induction fuel as [|k IH]; intros low high r H L A B E; [discriminate E|]. cbn [search_loop] in E.
  destruct (Nat.leb_spec low high) as [G|G].
  2:{ injection E as <-. split; [exact A|]. intros i x Hi. apply B. lia. }
  pose proof (mid_bounds low high G) as M. set (mid := (low + high) / 2) in *. clearbody mid.
  destruct (at_lt _ vec mid ltac:(lia)) as (x & Hx & Ex). rewrite Ex in E. cbn [obind] in E.
  destruct (o_eq cmp x value) eqn:EQ.
  { injection E as <-. exists x. split; [exact Hx|]. apply o_eq_iff; [exact (P_at _ _ Hx)|exact Pv|exact EQ]. }
  destruct (o_lt cmp x value) eqn:LT.
  - apply IH in E; [exact E|lia|lia| |].
    + intros i y Hi Hy. apply (le_lt_trans' y x); [exact (P_at _ _ Hy)|exact (P_at _ _ Hx)|exact Pv|apply (below i mid); [lia|exact Hy|exact Hx]|apply o_lt_iff; exact LT].
    + exact B.
  - assert (GT : lt value x).
    { destruct (le_or_lt x value (P_at _ _ Hx) Pv) as [X|X]; [|exact X]. exfalso.
      destruct (le_or_lt value x Pv (P_at _ _ Hx)) as [Y|Y].
      - assert (o_eq cmp x value = true) by (apply o_eq_iff; auto; exact (P_at _ _ Hx)). congruence.
      - apply o_lt_iff in Y. congruence. }
    destruct (Nat.eqb_spec mid 0) as [Z|Z].
    + injection E as <-. split; [exact A|]. intros i y Hi Hy.
      apply (lt_le_trans' value x); [exact Pv|exact (P_at _ _ Hx)|exact (P_at _ _ Hy)|exact GT|apply (below mid i); [lia|exact Hx|exact Hy]].
    + apply IH in E; [exact E|lia|lia|exact A|].
      intros i y Hi Hy. apply (lt_le_trans' value x); [exact Pv|exact (P_at _ _ Hx)|exact (P_at _ _ Hy)|exact GT|apply (below mid i); [lia|exact Hx|exact Hy]].
Qed.
Lemma bs_found : forall i, bs vec value = Ret i -> found i.
Proof.
  intros i E. assert (N : vec <> []) by (intros ->; discriminate E). assert (L : 0 < length vec) by (destruct vec; [congruence|cbn; lia]).
  unfold binary_search_index in E. destruct (search_loop cmp (length vec + 1) vec value 0 (length vec - 1)) as [r| |] eqn:ES; cbn [obind] in E; try discriminate E.
  apply search_loop_found in ES; [|lia|lia|intros; lia|].
  2:{ intros j x Hj Hx. assert (j < length vec) by (apply nth_error_Some; congruence). lia. }
  destruct r as [mid|low]; [injection E as <-; left; exact ES|]. destruct ES as [A B].
  destruct (Nat.ltb_spec (length vec - 1) low) as [G|G].
  - injection E as <-. right. right. destruct (at_lt _ vec (length vec - 1) ltac:(lia)) as (x & Hx & _). exists x. split; [exact Hx|].
    split; [apply (A (length vec - 1)); [lia|exact Hx]|]. intros y Hy. assert (length vec - 1 + 1 < length vec) by (apply nth_error_Some; congruence). lia.
  - destruct (at_lt _ vec low ltac:(lia)) as (x & Hx & Ex). rewrite Ex in E. cbn [obind] in E.
    assert (LV : lt value x) by (apply (B low); [lia|exact Hx]).
    assert (NL : o_lt cmp x value = false).
    { apply not_true_is_false. rewrite o_lt_iff. intro X. apply (proj1 (lt_not_le _ _ Pv (P_at _ _ Hx)) LV). apply lt_le. exact X. }
    rewrite NL in E. destruct (Nat.eqb_spec low 0) as [->|Z].
    + injection E as <-. right. left. split; [reflexivity|]. eauto.
    + injection E as <-. right. right. destruct (at_lt _ vec (low - 1) ltac:(lia)) as (y & Hy & _). exists y. split; [exact Hy|].
      split; [apply (A (low - 1)); [lia|exact Hy]|]. intros z Hz. replace (low - 1 + 1) with low in Hz by lia. congruence.
Qed.
(** a strictly sorted array has one place *)
Lemma bs_place : strictly_sorted cmp vec -> forall i, bs vec value = Ret i -> place cmp vec value i.
Proof.
  intros SS i E. assert (N : vec <> []) by (intros ->; discriminate E).
  destruct (bs_total vec value N) as (i' & E' & L). rewrite E in E'. injection E' as <-.
  pose proof (bs_found i E) as F. split; [exact L|]. split; [|split].
  - intros x Hx LT. destruct F as [(y & Hy & A & B)|[(-> & _)|(y & Hy & A & B)]]; [|reflexivity|]; exfalso;
      pose proof (below 0 i x y ltac:(lia) Hx Hy) as C; pose proof (P_at _ _ Hx) as Px; pose proof (P_at _ _ Hy) as Py;
      apply (proj1 (lt_not_le _ _ Pv Px) LT); apply (le_trans' x y); try assumption. apply lt_le. exact A.
  - intros x Hx LE. destruct (Nat.eq_dec i (length vec - 1)) as [|NE]; [assumption|exfalso].
    destruct F as [(y & Hy & A & B)|[(-> & y & Hy & A)|(y & Hy & A & B)]].
    + pose proof (SS i (length vec - 1) y x ltac:(lia) Hy Hx) as C. pose proof (P_at _ _ Hx) as Px. pose proof (P_at _ _ Hy) as Py.
      apply (proj1 (lt_not_le _ _ Py Px) C). apply (le_trans' x value); assumption.
    + pose proof (below 0 (length vec - 1) y x ltac:(lia) Hy Hx) as C. pose proof (P_at _ _ Hx) as Px. pose proof (P_at _ _ Hy) as Py.
      apply (proj1 (lt_not_le _ _ Pv Py) A). apply (le_trans' y x); assumption.
    + destruct (at_lt _ vec (i + 1) ltac:(lia)) as (z & Hz & _). specialize (B z Hz). pose proof (P_at _ _ Hx) as Px. pose proof (P_at _ _ Hz) as Pz.
      pose proof (below (i + 1) (length vec - 1) z x ltac:(lia) Hz Hx) as C. apply (proj1 (lt_not_le _ _ Pv Pz) B). apply (le_trans' z x); assumption.
  - intros a b Ha Hb LA LB. destruct F as [(y & Hy & A & B)|[(-> & y & Hy & A)|(y & Hy & A & B)]].
    + assert (NE : i <> length vec - 1).
      { intros ->. rewrite Hb in Hy. injection Hy as <-. apply (proj1 (lt_not_le _ _ Pv (P_at _ _ Hb)) LB). exact A. }
      destruct (at_lt _ vec (i + 1) ltac:(lia)) as (z & Hz & _). exists y, z. split; [exact Hy|]. split; [exact Hz|]. split; [exact A|].
      apply (le_lt_trans' value y); [exact Pv|exact (P_at _ _ Hy)|exact (P_at _ _ Hz)|exact B|apply (SS i (i + 1)); [lia|exact Hy|exact Hz]].
    + exfalso. rewrite Ha in Hy. injection Hy as <-. apply (proj1 (lt_not_le _ _ Pv (P_at _ _ Ha)) A). exact LA.
    + assert (NE : i <> length vec - 1).
      { intros ->. rewrite Hb in Hy. injection Hy as <-. apply (proj1 (lt_not_le _ _ Pv (P_at _ _ Hb)) LB). apply lt_le. exact A. }
      destruct (at_lt _ vec (i + 1) ltac:(lia)) as (z & Hz & _). exists y, z. split; [exact Hy|]. split; [exact Hz|]. split; [apply lt_le; exact A|]. auto.
Qed.
End Search.

Lemma strict_sorted : forall v, strictly_sorted cmp v -> sorted cmp v.
Proof. intros v H i j x y L Hx Hy. apply lt_le. apply (H i j); assumption. Qed.

Lemma place_unique : forall v value i j, Forall P v -> P value -> strictly_sorted cmp v -> place cmp v value i -> place cmp v value j -> i = j.
Proof.
  intros v value i j PV Pv SS (Li & A1 & A2 & A3) (Lj & B1 & B2 & B3).
  destruct (at_lt _ v 0 ltac:(lia)) as (a & Ha & _). destruct (at_lt _ v (length v - 1) ltac:(lia)) as (b & Hb & _).
  pose proof (P_at v PV _ _ Ha) as Pa. pose proof (P_at v PV _ _ Hb) as Pb.
  destruct (le_or_lt a value Pa Pv) as [LA|LA]; [|rewrite (A1 a Ha LA), (B1 a Ha LA); reflexivity].
  destruct (le_or_lt b value Pb Pv) as [LB|LB]; [rewrite (A2 b Hb LB), (B2 b Hb LB); reflexivity|].
  destruct (A3 a b Ha Hb LA LB) as (x & y & Hx & Hy & X1 & X2). destruct (B3 a b Ha Hb LA LB) as (x' & y' & Hx' & Hy' & Y1 & Y2).
  assert (G : forall i j x y x', nth_error v i = Some x -> nth_error v (i + 1) = Some y -> nth_error v j = Some x' -> lt value y -> le x' value -> j <= i).
  { intros i0 j0 x0 y0 x1 H0 H1 H2 L1 L2. destruct (Nat.le_gt_cases j0 i0) as [|G]; [assumption|exfalso].
    pose proof (below v PV (strict_sorted v SS) (i0 + 1) j0 y0 x1 ltac:(lia) H1 H2) as C.
    pose proof (P_at v PV _ _ H1). pose proof (P_at v PV _ _ H2). apply (proj1 (lt_not_le value y0 Pv ltac:(assumption)) L1). apply (le_trans' y0 x1); assumption. }
  pose proof (G i j x y x' Hx Hy Hx' X2 Y1). pose proof (G j i x' y' x Hx' Hy' Hx Y2 X1). lia.
Qed.

(** ** The vectorized search *)
Lemma scan_total : forall vec s n j, j + n < length vec -> exists r j', scan cmp n vec s j = Ret (r, j') /\ r <= j + n /\ j <= j' <= j + n.
Proof.
  intros vec s. induction n as [|n IH]; intros j H; cbn [scan]; [exists 0, j; split; [reflexivity|lia]|].
  destruct (at_lt _ vec j ltac:(lia)) as (a & _ & ->). destruct (at_lt _ vec (j + 1) ltac:(lia)) as (b & _ & ->). cbn [obind].
  assert (E : exists h, (if o_ge cmp s a then Ret (o_lt cmp s b) else Ret false) = Ret h) by (destruct (o_ge cmp s a); eauto).
  destruct E as [h ->]. cbn [obind]. destruct h; [exists j, j; split; [reflexivity|lia]|].
  destruct (IH (j + 1) ltac:(lia)) as (r & j' & E & A & B). exists r, j'. split; [exact E|lia].
Qed.
Lemma scan_all_total : forall vec first last, first < length vec -> last < length vec -> forall search j, j <= first \/ j <= last ->
  exists rs, scan_all cmp vec first last search j = Ret rs /\ length rs = length search /\ Forall (fun r => r < length vec) rs.
Proof.
  intros vec first last Hf Hl. induction search as [|s search IH]; intros j Hj; cbn [scan_all]; [eexists; split; [reflexivity|]; split; [reflexivity|constructor]|].
  destruct (at_lt _ vec first Hf) as (f & _ & ->). cbn [obind]. destruct (o_lt cmp s f).
  { destruct (IH j Hj) as (rs & -> & A & B). cbn [obind]. eexists. split; [reflexivity|]. split; [cbn; lia|constructor; assumption]. }
  destruct (at_lt _ vec last Hl) as (l & _ & ->). cbn [obind]. destruct (o_ge cmp s l).
  { destruct (IH j Hj) as (rs & -> & A & B). cbn [obind]. eexists. split; [reflexivity|]. split; [cbn; lia|constructor; assumption]. }
  destruct (Nat.le_gt_cases j last) as [G|G].
  - destruct (scan_total vec s (last - j) j ltac:(lia)) as (r & j' & -> & R1 & R2). cbn [obind].
    destruct (IH j' ltac:(lia)) as (rs & -> & A & B). cbn [obind]. eexists. split; [reflexivity|]. split; [cbn; lia|constructor; [lia|assumption]].
  - replace (last - j) with 0 by lia. cbn [scan obind]. destruct (IH j Hj) as (rs & -> & A & B). cbn [obind]. eexists. split; [reflexivity|]. split; [cbn; lia|constructor; [lia|assumption]].
Qed.

Section Vectorized.
Variables (vec : list T).
Hypothesis (PV : Forall P vec) (SS : strictly_sorted cmp vec).
Let SV := strict_sorted vec SS.
(** scanning from before the place finds it *)
Lemma scan_found : forall s n j k x y, P s -> j <= k -> k < j + n -> nth_error vec k = Some x -> nth_error vec (k + 1) = Some y -> le x s -> lt s y ->
  scan cmp n vec s j = Ret (k, k).
Proof.
  intros s n. induction n as [|n IH]; intros j k x y Ps Hj Hk Hx Hy LX LY; [lia|]. cbn [scan].
  assert (k + 1 < length vec) by (apply nth_error_Some; congruence).
  destruct (Nat.eq_dec j k) as [->|NE].
  - rewrite (at_some _ _ _ _ Hx), (at_some _ _ _ _ Hy). cbn [obind].
    rewrite (proj2 (o_ge_iff s x Ps (P_at vec PV _ _ Hx)) LX). cbn [obind]. rewrite (proj2 (o_lt_iff s y) LY). reflexivity.
  - destruct (at_lt _ vec j ltac:(lia)) as (a & Ha & ->). destruct (at_lt _ vec (j + 1) ltac:(lia)) as (b & Hb & ->). cbn [obind].
    assert (NL : o_lt cmp s b = false).
    { apply not_true_is_false. rewrite o_lt_iff. intro X. apply (proj1 (lt_not_le s b Ps (P_at vec PV _ _ Hb)) X).
      apply (le_trans' b x s); try assumption; [exact (P_at vec PV _ _ Hb)|exact (P_at vec PV _ _ Hx)|].
      apply (below vec PV SV (j + 1) k); [lia|exact Hb|exact Hx]. }
    rewrite NL. assert (E : (if o_ge cmp s a then Ret false else Ret false) = Ret (A := bool) false) by (destruct (o_ge cmp s a); reflexivity).
    rewrite E. cbn [obind]. apply (IH (j + 1) k x y); try assumption; lia.
Qed.
Lemma scan_all_found : forall first last s0 s9 search j, P s0 -> P s9 -> Forall P search ->
  bs vec s0 = Ret first -> bs vec s9 = Ret last ->
  Forall (fun s => le s0 s /\ le s s9) search -> sorted cmp search -> j <= last ->
  (* the scan has not passed the place of any value still to come *)
  Forall (fun s => forall k x y, nth_error vec k = Some x -> nth_error vec (k + 1) = Some y -> le x s -> lt s y -> j <= k) search ->
  exists rs, scan_all cmp vec first last search j = Ret rs /\ Forall2 (fun s r => place cmp vec s r) search rs.
Proof.
  intros first last s0 s9 search. intros j P0 P9 PS E0 E9.
  assert (N : vec <> []) by (intros ->; discriminate E0).
  pose proof (bs_place vec s0 PV P0 SV SS first E0) as F0. pose proof (bs_place vec s9 PV P9 SV SS last E9) as F9.
  pose proof F0 as (Lf & F01 & F02 & F03). pose proof F9 as (Ll & F91 & F92 & F93).
  destruct (at_lt _ vec first Lf) as (f & Hf & Ef). destruct (at_lt _ vec last Ll) as (l & Hl & El).
  pose proof (P_at vec PV _ _ Hf) as Pf. pose proof (P_at vec PV _ _ Hl) as Pl.
  destruct (at_lt _ vec 0 ltac:(lia)) as (v0 & Hv0 & _). destruct (at_lt _ vec (length vec - 1) ltac:(lia)) as (v9 & Hv9 & _).
  pose proof (P_at vec PV _ _ Hv0) as Pv0. pose proof (P_at vec PV _ _ Hv9) as Pv9.
  revert j PS. induction search as [|s search IH]; intros j PS B SO J K; cbn [scan_all]; [eexists; split; [reflexivity|constructor]|].
  inversion PS as [|? ? Ps PS']; subst. inversion B as [|? ? [B1 B2] B']; subst. inversion K as [|? ? K1 K']; subst.
  assert (SO' : sorted cmp search) by (intros i i' x y L Hx Hy; apply (SO (S i) (S i')); [lia|exact Hx|exact Hy]).
  rewrite Ef. cbn [obind]. destruct (o_lt cmp s f) eqn:LF.
  { apply o_lt_iff in LF. destruct (IH j PS' B' SO' J K') as (rs & -> & A). cbn [obind]. eexists. split; [reflexivity|]. constructor; [|exact A].
    (* then the first value lies before the array *)
    assert (first = 0 /\ lt s v0).
    { destruct (le_or_lt v0 s0 Pv0 P0) as [X|X].
      - exfalso. assert (le f s0).
        { destruct (le_or_lt v9 s0 Pv9 P0) as [Y|Y].
          - rewrite (F02 v9 Hv9 Y) in Hf. rewrite Hv9 in Hf. injection Hf as <-. exact Y.
          - destruct (F03 v0 v9 Hv0 Hv9 X Y) as (x & y & Hx & _ & Q & _). rewrite Hx in Hf. injection Hf as <-. exact Q. }
        apply (proj1 (lt_not_le s f Ps Pf) LF). apply (le_trans' f s0); assumption.
      - pose proof (F01 v0 Hv0 X) as Z. split; [exact Z|]. rewrite Z in Hf. rewrite Hv0 in Hf. injection Hf as <-. exact LF. }
    destruct H as [-> LV]. split; [exact Lf|]. split; [reflexivity|]. split.
    - intros x Hx LE. exfalso. rewrite Hv9 in Hx. injection Hx as <-. apply (proj1 (lt_not_le s v0 Ps Pv0) LV).
      apply (le_trans' v0 v9); try assumption. apply (below vec PV SV 0 (length vec - 1)); [lia|exact Hv0|exact Hv9].
    - intros a b Ha _ LA _. exfalso. rewrite Hv0 in Ha. injection Ha as <-. apply (proj1 (lt_not_le s v0 Ps Pv0) LV). exact LA. }
  rewrite El. cbn [obind]. destruct (o_ge cmp s l) eqn:GL.
  { apply o_ge_iff in GL; [|assumption|assumption]. destruct (IH j PS' B' SO' J K') as (rs & -> & A). cbn [obind]. eexists. split; [reflexivity|]. constructor; [|exact A].
    split; [exact Ll|]. split; [|split].
    - intros x Hx LT. exfalso. rewrite Hv0 in Hx. injection Hx as <-. apply (proj1 (lt_not_le s v0 Ps Pv0) LT).
      apply (le_trans' v0 l); try assumption. apply (below vec PV SV 0 last); [lia|exact Hv0|exact Hl].
    - intros x Hx LE. apply (F92 x Hx). rewrite Hv9 in Hx. injection Hx as <-. apply (le_trans' v9 s); assumption.
    - intros a b Ha Hb LA LB. rewrite Hv0 in Ha. injection Ha as <-. rewrite Hv9 in Hb. injection Hb as <-.
      destruct (le_or_lt v9 s9 Pv9 P9) as [X|X].
      + exfalso. rewrite (F92 v9 Hv9 X) in Hl. rewrite Hv9 in Hl. injection Hl as <-. apply (proj1 (lt_not_le s v9 Ps Pv9) LB). exact GL.
      + destruct (F93 v0 v9 Hv0 Hv9 ltac:(apply (le_trans' v0 s); assumption) X) as (x & y & Hx & Hy & X1 & X2).
        exists x, y. rewrite Hl in Hx. injection Hx as <-. split; [exact Hl|]. split; [exact Hy|]. split; [exact GL|].
        apply (le_lt_trans' s s9); try assumption. exact (P_at vec PV _ _ Hy). }
  (* in between *)
  assert (FS : le f s).
  { destruct (le_or_lt f s Pf Ps) as [X|X]; [exact X|]. apply o_lt_iff in X. congruence. }
  assert (SL : lt s l).
  { destruct (le_or_lt l s Pl Ps) as [X|X]; [|exact X]. apply (o_ge_iff s l Ps Pl) in X. congruence. }
  destruct (bs_total vec s N) as (k & Ek & Lk). pose proof (bs_place vec s PV Ps SV SS k Ek) as (_ & _ & _ & PK).
  destruct (PK v0 v9 Hv0 Hv9) as (x & y & Hx & Hy & X1 & X2).
  { apply (le_trans' v0 f); try assumption. apply (below vec PV SV 0 first); [lia|exact Hv0|exact Hf]. }
  { apply (lt_le_trans' s l); try assumption. apply (below vec PV SV last (length vec - 1)); [lia|exact Hl|exact Hv9]. }
  pose proof (P_at vec PV _ _ Hx) as Px. pose proof (P_at vec PV _ _ Hy) as Py.
  assert (KL : k < last).
  { destruct (Nat.le_gt_cases last k) as [G|G]; [exfalso|exact G]. apply (proj1 (lt_not_le s l Ps Pl) SL).
    apply (le_trans' l x); try assumption. apply (below vec PV SV last k); [lia|exact Hl|exact Hx]. }
  pose proof (K1 k x y Hx Hy X1 X2) as JK.
  rewrite (scan_found s (last - j) j k x y Ps JK ltac:(lia) Hx Hy X1 X2). cbn [obind].
  destruct (IH k PS' B' SO' ltac:(lia)) as (rs & -> & A).
  { apply Forall_forall. intros s' Hs' k' x' y' Hx' Hy' L1 L2.
    apply In_nth_error in Hs'. destruct Hs' as [i Hi]. pose proof (SO 0 (S i) s s' ltac:(lia) eq_refl Hi) as LS.
    assert (Ps' : P s') by (rewrite Forall_forall in PS'; apply PS'; apply nth_error_In with i; exact Hi).
    destruct (Nat.le_gt_cases k k') as [|G]; [assumption|exfalso].
    pose proof (P_at vec PV _ _ Hy') as Py'. apply (proj1 (lt_not_le s' y' Ps' Py') L2).
    apply (le_trans' y' x); try assumption; [apply (below vec PV SV (k' + 1) k); [lia|exact Hy'|exact Hx]|]. apply (le_trans' x s); assumption. }
  cbn [obind]. eexists. split; [reflexivity|]. constructor; [|exact A]. exact (bs_place vec s PV Ps SV SS k Ek).
Qed.
End Vectorized.
End Proofs.
