(** ClockProofs.v -- lemmas about counters, civil time and averages. *)
From Coq Require Import ZArith List Bool Lia.
From Verif Require Import Base NumSpec CivilSpec ClockModel.
Import ListNotations.
Open Scope Z_scope.

(** ** Counters *)

Lemma counter_run_nth : forall n c i, (i < n)%nat -> 0 <= c_value c < two64 ->
  nth_error (counter_run n c) i =
  Some (let v := (c_value c + Z.of_nat i) mod two64 in if c_end c <? v then RErr else ROk v).
Proof.
  induction n as [|n IH]; intros c i Hi Hv; [lia|].
  cbn [counter_run]. unfold counter_next, fetch_add1.
  destruct i as [|i]; cbn [nth_error].
  - rewrite Z.add_0_r, Z.mod_small by exact Hv. reflexivity.
  - rewrite IH; [|lia|cbn; apply Z.mod_pos_bound; reflexivity].
    cbn [c_value c_end]. rewrite Zplus_mod_idemp_l.
    replace (c_value c + 1 + Z.of_nat i) with (c_value c + Z.of_nat (S i)) by lia. reflexivity.
Qed.

Lemma counter_run_length : forall n c, length (counter_run n c) = n.
Proof.
  induction n as [|n IH]; intro c; [reflexivity|]. cbn [counter_run].
  destruct (counter_next c). cbn. rewrite IH. reflexivity.
Qed.

Lemma unbounded_run_nth : forall n v i, (i < n)%nat -> 0 <= v < two64 ->
  nth_error (unbounded_run n v) i = Some ((v + Z.of_nat i) mod two64).
Proof.
  induction n as [|n IH]; intros v i Hi Hv; [lia|].
  cbn [unbounded_run]. unfold unbounded_next, fetch_add1.
  destruct i as [|i]; cbn [nth_error].
  - rewrite Z.add_0_r, Z.mod_small by exact Hv. reflexivity.
  - rewrite IH; [|lia|apply Z.mod_pos_bound; reflexivity].
    rewrite Zplus_mod_idemp_l. do 2 f_equal. lia.
Qed.

Lemma unbounded_run_length : forall n v, length (unbounded_run n v) = n.
Proof.
  induction n as [|n IH]; intro v; [reflexivity|]. cbn [unbounded_run].
  destruct (unbounded_next v). cbn. rewrite IH. reflexivity.
Qed.

(** ** Civil time *)

Lemma is_leap_ok : forall y, 0 <= y -> is_leap_year y = leapb y.
Proof.
  intros y H. unfold is_leap_year, leapb.
  rewrite !Z.rem_mod_nonneg by lia. reflexivity.
Qed.

Lemma days_in_month_ok : forall y m, 0 <= y -> 1 <= m <= 12 -> days_in_month y m = month_days y m.
Proof.
  intros y m Hy Hm. unfold days_in_month, month_days. rewrite is_leap_ok by lia.
  month_cases m; reflexivity.
Qed.

Lemma year_days_range : forall y, 365 <= year_days y <= 366.
Proof. intro y. unfold year_days. destruct (leapb y); lia. Qed.

Lemma find_year_ok : forall fuel days year, 0 <= days -> 1970 <= year -> days < Z.of_nat fuel ->
  exists y rest, find_year fuel days year = Ret (y, rest) /\ year <= y /\ 0 <= rest < year_days y /\
    year_start y + rest = year_start year + days.
Proof.
  induction fuel as [|fuel IH]; intros days year Hd Hy Hf; [lia|].
  cbn [find_year]. rewrite is_leap_ok by lia. fold (year_days year).
  pose proof (year_days_range year).
  destruct (Z.ltb_spec days (year_days year)) as [L|L].
  - exists year, days. split; [reflexivity|]. lia.
  - destruct (IH (days - year_days year) (year + 1)) as (y & rest & E & Hle & Hr & Hs); try lia.
    exists y, rest. split; [exact E|]. split; [lia|]. split; [exact Hr|].
    rewrite Hs, year_next. lia.
Qed.

Lemma find_month_ok : forall fuel y days month, 0 <= y -> 0 <= days -> 1 <= month <= 12 ->
  13 - month < Z.of_nat fuel -> month_start y month + days < year_days y ->
  exists m' rest, find_month fuel y days month = Ret (m', rest) /\ 1 <= m' <= 12 /\
    0 <= rest < month_days y m' /\ month_start y m' + rest = month_start y month + days.
Proof.
  induction fuel as [|fuel IH]; intros y days month Hy Hd Hm Hf Hb; [lia|].
  cbn [find_month]. pose proof (month_days_range y month).
  destruct (Z.ltb_spec 0 days) as [P|P].
  - rewrite days_in_month_ok by lia.
    destruct (Z.ltb_spec days (month_days y month)) as [L|L].
    + exists month, days. split; [reflexivity|]. lia.
    + assert (month < 12).
      { destruct (Z.eq_dec month 12) as [->|]; [|lia]. pose proof (month_last y). lia. }
      destruct (IH y (days - month_days y month) (month + 1)) as (m' & rest & E & Hm' & Hr & Hs); try lia.
      { rewrite month_next by lia. lia. }
      exists m', rest. split; [exact E|]. split; [exact Hm'|]. split; [exact Hr|].
      rewrite Hs, month_next by lia. lia.
  - exists month, days. split; [reflexivity|]. lia.
Qed.

Theorem days_to_date_ok : forall n, 0 <= n ->
  exists y m d, days_to_date n = Ret (y, m, d) /\ 1970 <= y /\ valid_date y m d /\ day_number y m d = n.
Proof.
  intros n Hn. unfold days_to_date.
  destruct (find_year_ok (S (Z.to_nat n)) n 1970) as (y & rest & E & Hy & Hr & Hs); try lia.
  rewrite E. cbn [obind].
  destruct (find_month_ok 14 y rest 1) as (m & rest' & E' & Hm & Hr' & Hs'); try lia.
  { rewrite month_start_1. lia. }
  rewrite E'. cbn [obind].
  exists y, m, (rest' + 1). split; [reflexivity|]. split; [exact Hy|]. split.
  - split; [exact Hm|]. lia.
  - unfold day_number. rewrite month_start_1 in Hs'. change (year_start 1970) with 0 in Hs. lia.
Qed.

(** ** Decimal text *)

Lemma digit_chars_length : forall n v, length (digit_chars n v) = n.
Proof.
  induction n as [|n IH]; intro v; [reflexivity|]. cbn [digit_chars].
  rewrite app_length, IH. cbn. lia.
Qed.

Lemma digit_chars_zero : forall n, digit_chars n 0 = repeat 48 n.
Proof.
  induction n as [|n IH]; [reflexivity|]. cbn [digit_chars].
  change (0 / 10) with 0. change (0 mod 10) with 0. rewrite IH.
  change [48 + 0] with [48]. rewrite <- repeat_cons. reflexivity.
Qed.

Lemma dec_digits_pad : forall w fuel v, 0 <= v < 10 ^ Z.of_nat w -> (0 < w <= fuel)%nat ->
  (length (dec_digits fuel v) <= w)%nat /\
  repeat 48 (w - length (dec_digits fuel v)) ++ dec_digits fuel v = digit_chars w v.
Proof.
  induction w as [|w IH]; intros fuel v Hv Hw; [lia|].
  destruct fuel as [|fuel]; [lia|]. cbn [dec_digits digit_chars].
  destruct (Z.ltb_spec v 10) as [L|L].
  - cbn [length]. split; [lia|].
    rewrite Z.div_small, Z.mod_small, digit_chars_zero by lia.
    replace (S w - 1)%nat with w by lia. reflexivity.
  - assert (Hw0 : (0 < w)%nat).
    { destruct w; [|lia]. change (10 ^ Z.of_nat 1) with 10 in Hv. lia. }
    destruct (IH fuel (v / 10)) as [A B]; [|lia|].
    { split; [apply Z.div_pos; lia|]. apply Z.div_lt_upper_bound; [lia|].
      replace (Z.of_nat (S w)) with (1 + Z.of_nat w) in Hv by lia.
      rewrite Z.pow_add_r in Hv by lia. lia. }
    rewrite app_length. cbn [length]. split; [lia|].
    rewrite app_assoc. f_equal. rewrite <- B. do 2 f_equal. lia.
Qed.

Lemma fmt_padded_ok : forall w v, 0 <= v < 10 ^ Z.of_nat w -> (0 < w <= 40)%nat ->
  fmt_padded w v = digit_chars w v.
Proof.
  intros w v Hv Hw. unfold fmt_padded.
  destruct (Z.ltb_spec v 0) as [L|L]; [lia|]. rewrite Z.abs_eq by lia. cbn [app length].
  destruct (dec_digits_pad w 40 v Hv Hw) as [A B].
  rewrite Nat.sub_0_r. exact B.
Qed.

(** A value of more digits than the width is printed in full. *)
Lemma dec_digits_long : forall fuel v, 0 <= v -> forall w, 10 ^ Z.of_nat w <= v -> (w < fuel)%nat ->
  (w < length (dec_digits fuel v))%nat.
Proof.
  induction fuel as [|fuel IH]; intros v Hv w Hw Hf; [lia|].
  cbn [dec_digits]. destruct (Z.ltb_spec v 10) as [L|L].
  - destruct w; [cbn; lia|].
    replace (Z.of_nat (S w)) with (1 + Z.of_nat w) in Hw by lia.
    rewrite Z.pow_add_r in Hw by lia. assert (0 < 10 ^ Z.of_nat w) by (apply Z.pow_pos_nonneg; lia). lia.
  - rewrite app_length. cbn [length]. destruct w as [|w]; [lia|].
    enough (w < length (dec_digits fuel (v / 10)))%nat by lia.
    apply IH; [apply Z.div_pos; lia| |lia].
    apply Z.div_le_lower_bound; [lia|].
    replace (Z.of_nat (S w)) with (1 + Z.of_nat w) in Hw by lia.
    rewrite Z.pow_add_r in Hw by lia. lia.
Qed.

(** ** Averages *)

Lemma i64_result_ok : forall m x, is_i64 x -> i64_result m x = Ret x.
Proof.
  intros m x [A B]. unfold i64_result.
  destruct (Z.leb_spec i64_min x); [|lia]. destruct (Z.leb_spec x i64_max); [|lia]. reflexivity.
Qed.

Lemma u64_as_i64_small : forall x, x <= i64_max -> u64_as_i64 x = x.
Proof. intros. unfold u64_as_i64. destruct (Z.leb_spec x i64_max); [reflexivity|lia]. Qed.
