(** QDateProofs.v -- the accessors invert [day_number]; loops end. *)
From Coq Require Import ZArith List Bool Lia.
From Verif Require Import Base CivilSpec QDateModel.
Import ListNotations.
Open Scope Z_scope.

Lemma year_start_closed : forall y, year_start y = 365 * (y - 1970) + ((y - 1) / 4 - (y - 1) / 100 + (y - 1) / 400 - 477).
Proof. intro y. reflexivity. Qed.

Lemma date_year_spec : forall n, year_start (date_year n) <= n < year_start (date_year n + 1).
Proof.
  intro n. unfold date_year. set (y := 1970 + 400 * n / 146097).
  assert (A : year_start (y - 1) <= n < year_start (y + 2)).
  { rewrite !year_start_closed. subst y.
    replace (1970 + 400 * n / 146097 - 1 - 1) with (1968 + 400 * n / 146097) by lia.
    replace (1970 + 400 * n / 146097 + 2 - 1) with (1971 + 400 * n / 146097) by lia.
    Z.to_euclidean_division_equations; lia. }
  destruct (Z.ltb_spec n (year_start y)).
  - replace (y - 1 + 1) with y by lia. lia.
  - destruct (Z.leb_spec (year_start (y + 1)) n).
    + replace (y + 1 + 1) with (y + 2) by lia. lia.
    + lia.
Qed.

Lemma date_ordinal_range : forall n, 1 <= date_ordinal n <= year_days (date_year n).
Proof.
  intro n. unfold date_ordinal. pose proof (date_year_spec n) as H. rewrite year_next in H. lia.
Qed.

Lemma date_month_spec : forall n,
  1 <= date_month n <= 12 /\ 1 <= date_day n <= month_days (date_year n) (date_month n).
Proof.
  intro n. unfold date_day, date_month. set (y := date_year n). set (o := date_ordinal n).
  assert (Ho : 1 <= o <= year_days y) by apply date_ordinal_range. clearbody y o.
  cbn [month_search Z.of_nat Pos.of_succ_nat Pos.succ].
  pose proof (month_last y) as L.
  assert (N : forall m, 1 <= m < 12 -> month_start y (m + 1) = month_start y m + month_days y m)
    by (intro; apply month_next).
  pose proof (month_start_1 y) as F.
  repeat match goal with |- context [if ?a <? ?b then _ else _] => destruct (Z.ltb_spec a b) end;
  repeat match goal with
    | H : o <= month_start y ?k |- _ => let k' := eval compute in (k - 1) in
        pose proof (N k' ltac:(lia)); change (k' + 1) with k in *; revert H end; intros; split; lia.
Qed.

(** The accessors give the date with that day number... *)
Theorem date_fields : forall n,
  valid_date (date_year n) (date_month n) (date_day n) /\
  day_number (date_year n) (date_month n) (date_day n) = n.
Proof.
  intro n. pose proof (date_month_spec n) as [A B]. split; [split; assumption|].
  unfold day_number, date_day, date_ordinal. lia.
Qed.

(** ... and of a date, its fields. *)
Theorem fields_of_date : forall y m d, valid_date y m d ->
  date_year (day_number y m d) = y /\ date_month (day_number y m d) = m /\ date_day (day_number y m d) = d.
Proof.
  intros y m d V. destruct (date_fields (day_number y m d)) as [W E].
  exact (day_number_unique _ _ _ _ _ _ W V E).
Qed.

Lemma date_year_unique : forall n y, year_start y <= n < year_start (y + 1) -> date_year n = y.
Proof.
  intros n y H. pose proof (date_year_spec n) as G.
  destruct (Z.lt_trichotomy (date_year n) y) as [L|[E|L]]; [|exact E|].
  - pose proof (year_start_mono _ _ L) as M. rewrite <- year_next in M. lia.
  - pose proof (year_start_mono _ _ L) as M. rewrite <- year_next in M. lia.
Qed.

Lemma date_year_mono : forall a b, a <= b -> date_year a <= date_year b.
Proof.
  intros a b H. destruct (Z_le_gt_dec (date_year a) (date_year b)) as [L|G]; [exact L|].
  pose proof (year_start_mono (date_year b) (date_year a) ltac:(lia)) as M. rewrite <- year_next in M.
  pose proof (date_year_spec a). pose proof (date_year_spec b). lia.
Qed.

Lemma in_range_year : forall n, in_range n = true <-> -9999 <= date_year n <= 9999.
Proof.
  intro n. unfold in_range, date_min, date_max. rewrite andb_true_iff, !Z.leb_le. split.
  - intros [A B]. split.
    + replace (-9999) with (date_year (-4371587)) by (vm_compute; reflexivity). apply date_year_mono. exact A.
    + replace 9999 with (date_year 2932896) by (vm_compute; reflexivity). apply date_year_mono. exact B.
  - intros [A B]. pose proof (date_year_spec n) as [C D]. split.
    + replace (-4371587) with (year_start (-9999)) by (vm_compute; reflexivity).
      destruct (Z.eq_dec (-9999) (date_year n)) as [E|E]; [rewrite E; lia|].
      pose proof (year_start_mono (-9999) (date_year n) ltac:(lia)) as M. rewrite <- year_next in M.
      pose proof (year_next (-9999)) as N. change (year_days (-9999)) with 365 in N. lia.
    + assert (X : year_start (9999 + 1) = 2932897) by (vm_compute; reflexivity).
      destruct (Z.eq_dec (date_year n) 9999) as [E|E]; [rewrite E in D; lia|].
      pose proof (year_start_mono (date_year n + 1) (9999 + 1) ltac:(lia)) as M.
      unfold year_days in M. destruct (leapb (date_year n + 1)); lia.
Qed.

Lemma year_start_400 : forall y, year_start (y + 400) = year_start y + 146097.
Proof. intro y. rewrite !year_start_closed. Z.to_euclidean_division_equations; lia. Qed.

Lemma leapb_400 : forall y, leapb (y + 400) = leapb y.
Proof.
  intro y. unfold leapb.
  replace ((y + 400) mod 4) with (y mod 4) by (Z.to_euclidean_division_equations; lia).
  replace ((y + 400) mod 100) with (y mod 100) by (Z.to_euclidean_division_equations; lia).
  replace ((y + 400) mod 400) with (y mod 400) by (Z.to_euclidean_division_equations; lia).
  reflexivity.
Qed.

(** The Gregorian calendar repeats every 400 years, which are whole weeks. *)
Lemma date_year_400 : forall n, date_year (n + 146097) = date_year n + 400.
Proof.
  intro n. apply date_year_unique. pose proof (date_year_spec n).
  replace (date_year n + 400 + 1) with (date_year n + 1 + 400) by lia. rewrite !year_start_400. lia.
Qed.
Lemma date_ordinal_400 : forall n, date_ordinal (n + 146097) = date_ordinal n.
Proof. intro n. unfold date_ordinal. rewrite date_year_400, year_start_400. lia. Qed.
Lemma month_start_400 : forall y m, month_start (y + 400) m = month_start y m.
Proof. intros. unfold month_start. rewrite leapb_400. reflexivity. Qed.
Lemma month_search_400 : forall k y o, month_search k (y + 400) o = month_search k y o.
Proof.
  induction k as [|k IH]; intros y o; [reflexivity|]. cbn [month_search]. rewrite month_start_400, IH. reflexivity.
Qed.
Lemma date_month_400 : forall n, date_month (n + 146097) = date_month n.
Proof. intro n. unfold date_month. rewrite date_year_400, date_ordinal_400. apply month_search_400. Qed.
Lemma date_day_400 : forall n, date_day (n + 146097) = date_day n.
Proof.
  intro n. unfold date_day. rewrite date_year_400, date_ordinal_400, date_month_400, month_start_400. reflexivity.
Qed.
Lemma date_weekday_400 : forall n, date_weekday (n + 146097) = date_weekday n.
Proof. intro n. unfold date_weekday. Z.to_euclidean_division_equations; lia. Qed.

(** ** Loops *)
Section Loop.
Context {T R : Type} (f : T -> turn T R) (I : T -> Prop) (mu : T -> Z) (P : outcome R -> Prop).
Hypothesis body : forall t, I t ->
  match f t with Next t' => I t' /\ 0 <= mu t' < mu t | Stop r => P r end.

Lemma run_pow_measure : forall k t, I t ->
  match run_pow k f t with
  | Next t' => I t' /\ 0 <= mu t' <= mu t - 2 ^ Z.of_nat k
  | Stop r => P r
  end.
Proof.
  induction k as [|k IH]; intros t H.
  - cbn [run_pow]. specialize (body t H). destruct (f t); [|exact body]. change (2 ^ Z.of_nat 0) with 1.
    destruct body. split; [assumption|lia].
  - cbn [run_pow]. pose proof (IH t H) as A. destruct (run_pow k f t) as [t'|r]; [|exact A].
    destruct A as [A1 A2]. pose proof (IH t' A1) as B. destruct (run_pow k f t') as [t''|r]; [|exact B].
    destruct B as [B1 B2]. split; [exact B1|]. rewrite Nat2Z.inj_succ, Z.pow_succ_r by lia. lia.
Qed.

(** A loop whose body keeps [I] and decreases a measure below 2^24 stops, with [P]. *)
Theorem while_loop_ends : forall t, I t -> mu t < 16777216 -> P (while_loop f t).
Proof.
  intros t H L. unfold while_loop. pose proof (run_pow_measure 24 t H) as A.
  destruct (run_pow 24 f t) as [t'|r]; [|exact A]. change (2 ^ Z.of_nat 24) with 16777216 in A. lia.
Qed.
End Loop.

(** Unfolding a loop by its first turn. *)
Section Unroll.
Context {T R : Type} (f : T -> turn T R).
Fixpoint run_n (n : nat) (t : T) : turn T R :=
  match n with O => Next t | S n' => match f t with Next t' => run_n n' t' | Stop r => Stop r end end.
Lemma run_n_add : forall a b t, run_n (a + b) t = match run_n a t with Next t' => run_n b t' | Stop r => Stop r end.
Proof.
  induction a as [|a IH]; intros b t; [reflexivity|]. cbn [run_n Nat.add]. destruct (f t); [apply IH|reflexivity].
Qed.
Lemma run_pow_n : forall k t, run_pow k f t = run_n (2 ^ k) t.
Proof.
  induction k as [|k IH]; intro t.
  - cbn. destruct (f t); reflexivity.
  - cbn [run_pow]. rewrite Nat.pow_succ_r', Nat.mul_comm. replace (2 ^ k * 2)%nat with (2 ^ k + 2 ^ k)%nat by lia.
    rewrite run_n_add, IH. destruct (run_n (2 ^ k) t); [apply IH|reflexivity].
Qed.
Lemma run_n_more : forall a t r b, run_n a t = Stop r -> run_n (a + b) t = Stop r.
Proof. intros a t r b H. rewrite run_n_add, H. reflexivity. Qed.
End Unroll.

(** ** OffsetDateTime *)
(** The local date of a point in time at an offset. *)
Definition local_day (off : Z) (d : odt) : Z := (instant d + off * 1000000000) / day_ns.

Lemma local_day_self : forall d, 0 <= od_ns d < day_ns -> local_day (od_off d) d = od_day d.
Proof.
  intros d H. unfold local_day, instant.
  replace (od_day d * day_ns + od_ns d - od_off d * 1000000000 + od_off d * 1000000000)
    with (od_day d * day_ns + od_ns d) by ring.
  unfold day_ns in *. Z.to_euclidean_division_equations; lia.
Qed.

Lemma to_offset_ok : forall off d, in_range (local_day off d) = true ->
  exists d', to_offset off d = Ret d' /\ instant d' = instant d /\ od_off d' = off /\
    od_day d' = local_day off d /\ 0 <= od_ns d' < day_ns.
Proof.
  intros off d H. unfold to_offset. fold (local_day off d). rewrite H. eexists. split; [reflexivity|].
  cbn [od_day od_ns od_off]. unfold instant at 1. cbn [od_day od_ns od_off].
  unfold local_day. unfold day_ns.
  pose proof (Z.div_mod (instant d + off * 1000000000) 86400000000000 ltac:(lia)).
  pose proof (Z.mod_pos_bound (instant d + off * 1000000000) 86400000000000 ltac:(lia)).
  repeat split; lia.
Qed.

Lemma local_day_add : forall off n ns o k,
  local_day off (Odt (n + k) ns o) = local_day off (Odt n ns o) + k.
Proof.
  intros. unfold local_day, instant. cbn [od_day od_ns od_off].
  replace ((n + k) * day_ns + ns - o * 1000000000 + off * 1000000000)
    with (n * day_ns + ns - o * 1000000000 + off * 1000000000 + k * day_ns) by ring.
  apply Z.div_add. unfold day_ns. lia.
Qed.
