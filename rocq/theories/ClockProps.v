(** ClockProps.v -- properties C50-C56: counters, printed local time,
    timestamp differences, average trade price. *)
From Coq Require Import ZArith List Bool Lia QArith.
From Verif Require Import Base NumSpec CivilSpec ClockModel ClockProofs.
Import ListNotations.
Open Scope Z_scope.

(** ** C50: counters hand out every number once *)

(** [calls] is the list of the threads that called [next], in the order in
    which their [fetch_add]s took effect; the answer to the i-th of them. *)
Definition answer_to {A} (answers : list A) (calls : list nat) (i : nat) (thread : nat) (a : A) : Prop :=
  nth_error calls i = Some thread /\ nth_error answers i = Some a.

(** A bounded counter [start..=end] answers the i-th call (whoever makes it)
    with [start + i] while that is at most [end] and with an error after, as
    long as the 2^64 values have not been used up; so no number is handed out
    twice, none is skipped, and none lies outside the bounds. *)
Theorem C50_counter_once_each : forall start end_ calls,
  is_u64 start -> is_u64 end_ -> start + Z.of_nat (length calls) <= two64 ->
  let answers := counter_run (length calls) (counter_new start end_) in
  (forall i t, nth_error calls i = Some t ->
     answer_to answers calls i t
       (if end_ <? start + Z.of_nat i then RErr else ROk (start + Z.of_nat i))) /\
  (forall i j t u v, answer_to answers calls i t (ROk v) -> answer_to answers calls j u (ROk v) -> i = j) /\
  (forall i t v, answer_to answers calls i t (ROk v) -> start <= v <= end_).
Proof.
  intros start end_ calls Hs He Hn answers.
  assert (A : forall i t, nth_error calls i = Some t ->
     nth_error answers i = Some (if end_ <? start + Z.of_nat i then RErr else ROk (start + Z.of_nat i))).
  { intros i t Hi. assert (Hl : (i < length calls)%nat) by (apply nth_error_Some; congruence).
    unfold answers. rewrite counter_run_nth; [|exact Hl|cbn; exact Hs].
    cbn [counter_new c_value c_end]. rewrite Z.mod_small; [reflexivity|]. unfold is_u64 in Hs. lia. }
  split; [|split].
  - intros i t Hi. split; [exact Hi|]. eapply A; eauto.
  - intros i j t u v [Hi Ai] [Hj Aj]. rewrite (A _ _ Hi) in Ai. rewrite (A _ _ Hj) in Aj.
    destruct (end_ <? start + Z.of_nat i); [discriminate|]. destruct (end_ <? start + Z.of_nat j); [discriminate|].
    assert (start + Z.of_nat i = start + Z.of_nat j) by congruence. lia.
  - intros i t v [Hi Ai]. rewrite (A _ _ Hi) in Ai.
    destruct (Z.ltb_spec end_ (start + Z.of_nat i)); [discriminate|]. inversion Ai; lia.
Qed.
Print Assumptions C50_counter_once_each.

Example C50_hypotheses_met :
  is_u64 3 /\ is_u64 5 /\ 3 + Z.of_nat (length [0; 1; 0; 2]%nat) <= two64 /\
  counter_run 4 (counter_new 3 5) = [ROk 3; ROk 4; ROk 5; RErr].
Proof. unfold is_u64, two64. repeat split; cbn; try lia; reflexivity. Qed.

(** Unbounded counters: distinct answers over any 2^64 calls. *)
Theorem C50_unbounded_once_each : forall start calls,
  is_u64 start -> Z.of_nat (length calls) <= two64 ->
  let answers := unbounded_run (length calls) start in
  forall i j t u v, answer_to answers calls i t v -> answer_to answers calls j u v -> i = j.
Proof.
  intros start calls Hs Hn answers i j t u v [Hi Ai] [Hj Aj].
  assert (Li : (i < length calls)%nat) by (apply nth_error_Some; congruence).
  assert (Lj : (j < length calls)%nat) by (apply nth_error_Some; congruence).
  unfold answers in *. rewrite unbounded_run_nth in Ai by assumption. rewrite unbounded_run_nth in Aj by assumption.
  assert (E : (start + Z.of_nat i) mod two64 = (start + Z.of_nat j) mod two64) by congruence.
  unfold two64 in *. Z.to_euclidean_division_equations. lia.
Qed.
Print Assumptions C50_unbounded_once_each.

Example C50_unbounded_hypotheses_met :
  is_u64 (two64 - 1) /\ Z.of_nat (length [0; 1; 0]%nat) <= two64 /\
  unbounded_run 3 (two64 - 1) = [two64 - 1; 0; 1].
Proof. unfold is_u64, two64. repeat split; cbn; try lia; reflexivity. Qed.

(** [VirtualOrderId::next_id]: [n] calls hand out the [n] numbers from the
    starting one on, each once. *)
Theorem C50_virtual_ids_in_sequence : forall m n id,
  0 <= id -> id + Z.of_nat n < two64 ->
  exists l, next_ids m n id = Ret l /\ length l = n /\
    forall i, (i < n)%nat -> nth_error l i = Some (id + Z.of_nat i).
Proof.
  intros m n. induction n as [|n IH]; intros id H0 Hn; cbn [next_ids].
  - exists []. split; [reflexivity|]. split; [reflexivity|]. intros i Hi; lia.
  - unfold next_id. rewrite uadd_ok by lia. cbn [obind].
    destruct (IH (id + 1) ltac:(lia) ltac:(lia)) as (l & E & L & A). rewrite E. cbn [obind].
    exists (id :: l). split; [reflexivity|]. split; [cbn; lia|].
    intros [|i] Hi; cbn [nth_error]; [f_equal; lia|]. rewrite A by lia. f_equal; lia.
Qed.
Print Assumptions C50_virtual_ids_in_sequence.

Example C50_virtual_hypotheses_met : 7 + Z.of_nat 3 < two64 /\ next_ids Checked 3 7 = Ret [7; 8; 9].
Proof. split; [unfold two64; lia|reflexivity]. Qed.

(** ** C51: an exhausted counter stays exhausted -- refuted *)

(** After [end] has been passed the counter keeps counting, and when the
    64 bits wrap it answers [Ok] again, with numbers below [start]. *)
Theorem C51_exhausted_stays_exhausted_refuted : forall start end_ n,
  0 < start -> start <= end_ -> end_ < two64 - 1 ->
  Z.of_nat n = two64 - start + 1 ->
  nth_error (counter_run n (counter_new start end_)) (n - 2) = Some RErr /\
  nth_error (counter_run n (counter_new start end_)) (n - 1) = Some (ROk 0).
Proof.
  intros start end_ n H1 H2 H3 Hn.
  assert (T : two64 = 18446744073709551616) by reflexivity.
  assert (R : 0 <= c_value (counter_new start end_) < two64) by (cbn [counter_new c_value]; lia).
  split.
  - rewrite (counter_run_nth n (counter_new start end_) (n - 2) ltac:(lia) R).
    cbn [counter_new c_value c_end]. f_equal.
    replace (start + Z.of_nat (n - 2)) with (two64 - 1) by lia.
    rewrite Z.mod_small by lia.
    destruct (Z.ltb_spec end_ (two64 - 1)); [reflexivity|lia].
  - rewrite (counter_run_nth n (counter_new start end_) (n - 1) ltac:(lia) R).
    cbn [counter_new c_value c_end]. f_equal.
    replace (start + Z.of_nat (n - 1)) with two64 by lia.
    rewrite Z_mod_same_full. destruct (Z.ltb_spec end_ 0); [lia|reflexivity].
Qed.
Print Assumptions C51_exhausted_stays_exhausted_refuted.

Example C51_hypotheses_met : exists n, 0 < 3 /\ 3 <= 5 /\ 5 < two64 - 1 /\ Z.of_nat n = two64 - 3 + 1.
Proof.
  exists (Z.to_nat (two64 - 3 + 1)). rewrite Z2Nat.id by (unfold two64; lia).
  unfold two64. lia.
Qed.

(** ** C52: printed local time *)

Definition nanos_per_hour : Z := 3600 * 1000000000.
Definition nanos_per_day : Z := 24 * nanos_per_hour.

(** "YYYYMMDD" and "hh:mm:ss.mmm:uuu:nnn". *)
Definition date_text (y mo d : Z) : list Z := digit_chars 4 y ++ digit_chars 2 mo ++ digit_chars 2 d.
Definition time_text (h mi s ms us ns : Z) : list Z :=
  digit_chars 2 h ++ [58] ++ digit_chars 2 mi ++ [58] ++ digit_chars 2 s ++ [46] ++
  digit_chars 3 ms ++ [58] ++ digit_chars 3 us ++ [58] ++ digit_chars 3 ns.

Lemma convert_core : forall m u off,
  is_u64 u -> -24 <= off <= 24 ->
  exists y mo d h mi s ms us ns,
    convert_unix_nano m u off =
      Ret (fmt_padded 4 y ++ fmt_padded 2 mo ++ fmt_padded 2 d, time_text h mi s ms us ns) /\
    1970 <= y /\ valid_date y mo d /\
    day_number y mo d = ((u + off * nanos_per_hour) / nanos_per_day) mod 4294967296 /\
    0 <= h < 24 /\ 0 <= mi < 60 /\ 0 <= s < 60 /\ 0 <= ms < 1000 /\ 0 <= us < 1000 /\ 0 <= ns < 1000 /\
    (((h * 60 + mi) * 60 + s) * 1000 + ms) * 1000000 + us * 1000 + ns =
      (u + off * nanos_per_hour) mod nanos_per_day.
Proof.
  intros m u off Hu Ho. unfold is_u64, two64 in Hu. unfold convert_unix_nano.
  change (60 * 1000000000) with 60000000000. change (60 * 60000000000) with 3600000000000.
  change (24 * 3600000000000) with 86400000000000.
  set (D := u / 86400000000000). set (r1 := u mod 86400000000000).
  set (hh := r1 / 3600000000000). set (r2 := r1 mod 3600000000000).
  set (mi := r2 / 60000000000). set (r3 := r2 mod 60000000000).
  set (s := r3 / 1000000000). set (r4 := r3 mod 1000000000).
  set (ms := r4 / 1000000). set (r5 := r4 mod 1000000).
  set (us := r5 / 1000). set (ns := r5 mod 1000).
  assert (E1 : u = 86400000000000 * D + r1) by (apply Z.div_mod; lia).
  assert (E2 : r1 = 3600000000000 * hh + r2) by (apply Z.div_mod; lia).
  assert (E3 : r2 = 60000000000 * mi + r3) by (apply Z.div_mod; lia).
  assert (E4 : r3 = 1000000000 * s + r4) by (apply Z.div_mod; lia).
  assert (E5 : r4 = 1000000 * ms + r5) by (apply Z.div_mod; lia).
  assert (E6 : r5 = 1000 * us + ns) by (apply Z.div_mod; lia).
  assert (B1 : 0 <= r1 < 86400000000000) by (apply Z.mod_pos_bound; lia).
  assert (B2 : 0 <= r2 < 3600000000000) by (apply Z.mod_pos_bound; lia).
  assert (B3 : 0 <= r3 < 60000000000) by (apply Z.mod_pos_bound; lia).
  assert (B4 : 0 <= r4 < 1000000000) by (apply Z.mod_pos_bound; lia).
  assert (B5 : 0 <= r5 < 1000000) by (apply Z.mod_pos_bound; lia).
  assert (B6 : 0 <= ns < 1000) by (apply Z.mod_pos_bound; lia).
  clearbody D r1 hh r2 mi r3 s r4 ms r5 us ns.
  assert (Hh : 0 <= hh < 24) by lia. assert (Hm : 0 <= mi < 60) by lia.
  assert (Hs : 0 <= s < 60) by lia. assert (Hms : 0 <= ms < 1000) by lia. assert (Hus : 0 <= us < 1000) by lia.
  assert (HD : 0 <= D < 213504) by lia.
  unfold i32_result. destruct (Z.leb_spec (-2147483648) (hh + off)); [|lia].
  destruct (Z.leb_spec (hh + off) 2147483647); [|lia]. cbn [andb obind].
  set (adj := if 24 <=? hh + off then (hh + off - 24, D + 1)
              else if hh + off <? 0 then (hh + off + 24, D - 1) else (hh + off, D)).
  assert (Hadj : exists th td, adj = (th, td) /\ 0 <= th < 24 /\ 24 * td + th = 24 * D + hh + off).
  { unfold adj. destruct (Z.leb_spec 24 (hh + off)); [eexists _, _; split; [reflexivity|]; lia|].
    destruct (Z.ltb_spec (hh + off) 0); eexists _, _; (split; [reflexivity|]; lia). }
  destruct Hadj as (th & td & -> & Hth & Htd).
  destruct (days_to_date_ok (td mod 4294967296)) as (y & mo & d & E & Hy & Hv & Hn).
  { apply Z.mod_pos_bound. lia. }
  rewrite E. cbn [obind].
  assert (L : u + off * nanos_per_hour = 86400000000000 * td + (3600000000000 * th + r2)).
  { unfold nanos_per_hour. lia. }
  exists y, mo, d, th, mi, s, ms, us, ns. split.
  { do 2 f_equal. unfold time_text. rewrite !fmt_padded_ok by (cbn; lia). reflexivity. }
  split; [exact Hy|]. split; [exact Hv|]. split.
  { rewrite Hn, L. unfold nanos_per_day, nanos_per_hour. f_equal.
    change (24 * (3600 * 1000000000)) with 86400000000000.
    apply Z.div_unique with (r := 3600000000000 * th + r2); [left; lia|lia]. }
  do 6 (split; [assumption|]).
  rewrite L. unfold nanos_per_day, nanos_per_hour. change (24 * (3600 * 1000000000)) with 86400000000000.
  rewrite <- (Z.mod_unique (86400000000000 * td + (3600000000000 * th + r2)) 86400000000000 td
              (3600000000000 * th + r2)); [|left; lia|lia].
  lia.
Qed.

(** For every timestamp and every offset of at most a day that does not reach
    before 1970, the text is the Gregorian date and the time of day of the
    shifted instant; in both builds. *)
Theorem C52_local_time_text : forall m u off,
  is_u64 u -> -24 <= off <= 24 -> 0 <= u + off * nanos_per_hour ->
  exists y mo d h mi s ms us ns,
    convert_unix_nano m u off = Ret (date_text y mo d, time_text h mi s ms us ns) /\
    valid_date y mo d /\ day_number y mo d = (u + off * nanos_per_hour) / nanos_per_day /\
    0 <= h < 24 /\ 0 <= mi < 60 /\ 0 <= s < 60 /\ 0 <= ms < 1000 /\ 0 <= us < 1000 /\ 0 <= ns < 1000 /\
    (((h * 60 + mi) * 60 + s) * 1000 + ms) * 1000000 + us * 1000 + ns =
      (u + off * nanos_per_hour) mod nanos_per_day.
Proof.
  intros m u off Hu Ho Hl.
  destruct (convert_core m u off Hu Ho) as (y & mo & d & h & mi & s & ms & us & ns & E & Hy & Hv & Hn & R).
  assert (Hq : 0 <= (u + off * nanos_per_hour) / nanos_per_day < 300000).
  { unfold nanos_per_hour, nanos_per_day, nanos_per_hour, is_u64, two64 in *.
    split; [apply Z.div_pos; lia|]. apply Z.div_lt_upper_bound; lia. }
  rewrite Z.mod_small in Hn by lia.
  exists y, mo, d, h, mi, s, ms, us, ns. split; [|split; [exact Hv|]; split; [exact Hn|exact R]].
  rewrite E. do 2 f_equal. unfold date_text.
  pose proof (in_year _ _ _ Hv) as HY.
  assert (y < 10000).
  { destruct (Z_lt_ge_dec y 10000) as [|G]; [assumption|].
    assert (year_start 10000 <= year_start y).
    { destruct (Z.eq_dec y 10000) as [->|]; [lia|]. pose proof (year_start_mono 10000 y ltac:(lia)).
      pose proof (year_days_range 10000). lia. }
    change (year_start 10000) with 2932897 in *. lia. }
  destruct Hv as [Hm Hd]. pose proof (month_days_range y mo).
  rewrite !fmt_padded_ok by (cbn; lia). reflexivity.
Qed.
Print Assumptions C52_local_time_text.

(** 2024-02-29 23:59:59.999:999:999 UTC is 08:59:59 on 2024-03-01 in Seoul. *)
Example C52_hypotheses_met :
  is_u64 1709251199999999999 /\ 0 <= 1709251199999999999 + 9 * nanos_per_hour /\
  day_number 2024 3 1 = (1709251199999999999 + 9 * nanos_per_hour) / nanos_per_day.
Proof. unfold is_u64, two64, nanos_per_hour. repeat split; lia. Qed.

(** ** C53: instants before 1970 and larger offsets -- refuted *)

(** A local time before 1970 (a negative offset in the first hours of the
    epoch) is printed with a year of eight digits. *)
Theorem C53_before_1970_refuted : forall m u off,
  is_u64 u -> -24 <= off <= 24 -> u + off * nanos_per_hour < 0 ->
  exists y mo d time, convert_unix_nano m u off = Ret (fmt_padded 4 y ++ fmt_padded 2 mo ++ fmt_padded 2 d, time) /\
    10000000 <= y /\ (12 <= length (fmt_padded 4 y ++ fmt_padded 2 mo ++ fmt_padded 2 d))%nat.
Proof.
  intros m u off Hu Ho Hl.
  destruct (convert_core m u off Hu Ho) as (y & mo & d & h & mi & s & ms & us & ns & E & Hy & Hv & Hn & R).
  exists y, mo, d, (time_text h mi s ms us ns). split; [exact E|].
  assert (Hq : (u + off * nanos_per_hour) / nanos_per_day = -1).
  { symmetry. apply Z.div_unique with (r := u + off * nanos_per_hour + nanos_per_day);
      unfold nanos_per_day, nanos_per_hour, is_u64 in *; [left|]; lia. }
  rewrite Hq in Hn. change (-1 mod 4294967296) with 4294967295 in Hn.
  pose proof (in_year _ _ _ Hv) as HY.
  assert (HB : 10000000 <= y).
  { destruct (Z_le_gt_dec 10000000 y) as [|G]; [assumption|].
    pose proof (year_start_mono y 10000000 ltac:(lia)).
    change (year_start 10000000) with 3651705472 in *. lia. }
  split; [exact HB|].
  rewrite !app_length.
  assert (L4 : (7 < length (fmt_padded 4 y))%nat).
  { unfold fmt_padded. rewrite Z.abs_eq by lia. rewrite !app_length.
    pose proof (dec_digits_long 40 y ltac:(lia) 7 ltac:(cbn; lia) ltac:(lia)). lia. }
  destruct Hv as [Hm Hd]. pose proof (month_days_range y mo).
  rewrite (fmt_padded_ok 2 mo), (fmt_padded_ok 2 d) by (cbn; lia). rewrite !digit_chars_length. lia.
Qed.
Print Assumptions C53_before_1970_refuted.

Example C53_hypotheses_met : is_u64 0 /\ -24 <= -4 <= 24 /\ 0 + -4 * nanos_per_hour < 0.
Proof. unfold is_u64, two64, nanos_per_hour. lia. Qed.

(** An offset of two days prints "24:00" instead of moving the date on. *)
Theorem C53_wide_offset_refuted : forall m,
  convert_unix_nano m 0 48 = Ret (date_text 1970 1 2, time_text 24 0 0 0 0 0).
Proof. intros []; reflexivity. Qed.
Print Assumptions C53_wide_offset_refuted.

(** ** C54: clock components *)

(** Hours, minutes, seconds and milliseconds of the UTC day of every
    timestamp, in range and never truncated by the narrow casts. *)
Theorem C54_clock_components : forall u, is_u64 u ->
  exists h mi s ms, time_components u = (h, mi, s, ms) /\
    0 <= h < 24 /\ 0 <= mi < 60 /\ 0 <= s < 60 /\ 0 <= ms < 1000 /\
    ((h * 60 + mi) * 60 + s) * 1000 + ms = (u mod nanos_per_day) / 1000000.
Proof.
  intros u Hu. unfold time_components. eexists _, _, _, _. split; [reflexivity|].
  unfold is_u64, two64, nanos_per_day, nanos_per_hour in *.
  change (24 * (3600 * 1000000000)) with 86400000000000.
  set (t := u / 1000000000). set (n := u mod 1000000000).
  assert (E : u = 1000000000 * t + n) by (apply Z.div_mod; lia).
  assert (Bn : 0 <= n < 1000000000) by (apply Z.mod_pos_bound; lia).
  clearbody t n. set (d := t mod 86400). set (k := t / 86400).
  assert (Et : t = 86400 * k + d) by (apply Z.div_mod; lia).
  assert (Bd : 0 <= d < 86400) by (apply Z.mod_pos_bound; lia).
  clearbody d k. subst t.
  assert (Em : u mod 86400000000000 = 1000000000 * d + n).
  { symmetry. apply Z.mod_unique with (q := k); [left; lia|]. lia. }
  rewrite Em. clear Em E Hu.
  assert (H0 : 0 <= d / 3600 < 24) by (Z.to_euclidean_division_equations; lia).
  assert (H1 : 0 <= (d mod 3600) / 60 < 60) by (Z.to_euclidean_division_equations; lia).
  assert (H2 : 0 <= d mod 60 < 60) by (apply Z.mod_pos_bound; lia).
  assert (H3 : 0 <= n / 1000000 < 1000) by (Z.to_euclidean_division_equations; lia).
  rewrite (Z.mod_small (d / 3600)), (Z.mod_small ((d mod 3600) / 60)), (Z.mod_small (d mod 60) 256),
          (Z.mod_small (n / 1000000)) by lia.
  do 4 (split; [assumption|]).
  assert (S : (d / 3600 * 60 + (d mod 3600) / 60) * 60 + d mod 60 = d) by (Z.to_euclidean_division_equations; lia).
  rewrite S.
  apply Z.div_unique with (r := n mod 1000000); [left; apply Z.mod_pos_bound; lia|].
  pose proof (Z.div_mod n 1000000 ltac:(lia)). lia.
Qed.
Print Assumptions C54_clock_components.

Example C54_hypotheses_met : is_u64 1709251199999999999 /\
  time_components 1709251199999999999 = (23, 59, 59, 999).
Proof. unfold is_u64, two64. split; [lia|reflexivity]. Qed.

(** ** C55: timestamp differences *)

(** The exact value the code hands to floating point: q + r / scale. *)
Definition difference_value (scale : Z) (qr : Z * Z) : Q :=
  (inject_Z (fst qr) + Qmake (snd qr) (Z.to_pos scale))%Q.

(** For a later timestamp the difference is exact in every unit, with a
    fraction in [0, 1); it does not panic. *)
Theorem C55_difference_exact : forall m scale a b,
  In scale [1; micro_scale; milli_scale; second_scale; minute_scale; hour_scale; day_scale] ->
  is_u64 a -> is_u64 b -> b <= a ->
  exists qr, diff_in m scale a b = Ret qr /\ 0 <= snd qr < scale /\ 0 <= fst qr /\
    (difference_value scale qr * inject_Z scale == inject_Z a - inject_Z b)%Q.
Proof.
  intros m scale a b Hs Ha Hb L.
  assert (P : 0 < scale).
  { unfold micro_scale, milli_scale, second_scale, minute_scale, hour_scale, day_scale,
      minute_scale, hour_scale, minute_scale, second_scale in Hs.
    cbn in Hs. intuition lia. }
  unfold diff_in. rewrite usub_ok by exact L. cbn [obind]. unfold div_rem.
  exists ((a - b) / scale, a - b - (a - b) / scale * scale). split; [reflexivity|].
  cbn [fst snd]. pose proof (Z.div_mod (a - b) scale ltac:(lia)) as E.
  pose proof (Z.mod_pos_bound (a - b) scale P).
  split; [lia|]. split; [apply Z.div_pos; lia|].
  unfold difference_value. cbn [fst snd]. rewrite Qmake_Qdiv, Z2Pos.id by exact P.
  assert (N : ~ (inject_Z scale == 0)%Q) by (unfold Qeq, inject_Z; cbn [Qnum Qden]; lia).
  rewrite Qmult_plus_distr_l. unfold Qdiv. rewrite <- (Qmult_assoc _ (/ inject_Z scale)).
  rewrite (Qmult_comm (/ inject_Z scale)), Qmult_inv_r by exact N. rewrite Qmult_1_r.
  rewrite <- inject_Z_mult, <- inject_Z_plus. unfold Qminus. rewrite <- inject_Z_opp, <- inject_Z_plus.
  replace (a + - b) with ((a - b) / scale * scale + (a - b - (a - b) / scale * scale)) by lia. reflexivity.
Qed.
Print Assumptions C55_difference_exact.

Example C55_hypotheses_met : diff_in Checked milli_scale 5000001 2000000 = Ret (3, 1).
Proof. reflexivity. Qed.

(** Refuted for an earlier timestamp: no negative difference is produced; the
    checked build panics and the release build returns about 5.8 centuries. *)
Theorem C55_earlier_timestamp_refuted : forall a b, is_u64 a -> is_u64 b -> a < b ->
  diff_in Checked 1 a b = Panic /\
  diff_in Wrapping 1 a b = Ret (a - b + two64, 0).
Proof.
  intros a b Ha Hb L. unfold diff_in, usub.
  destruct (Z.leb_spec b a); [lia|]. cbn [obind]. split; [reflexivity|].
  unfold div_rem. rewrite Z.div_1_r, Z.mul_1_r, Z.sub_diag. reflexivity.
Qed.
Print Assumptions C55_earlier_timestamp_refuted.

Example C55_refuted_hypotheses_met : is_u64 1 /\ is_u64 2 /\ 1 < 2.
Proof. unfold is_u64, two64. lia. Qed.

(** ** C56: average trade price *)

(** Value and volume of a history. *)
Fixpoint traded_value (l : list (Z * Z)) : Z :=
  match l with [] => 0 | (p, q) :: r => p * q + traded_value r end.
Fixpoint traded_volume (l : list (Z * Z)) : Z :=
  match l with [] => 0 | (_, q) :: r => q + traded_volume r end.
Fixpoint absolute_value (l : list (Z * Z)) : Z :=
  match l with [] => 0 | (p, q) :: r => Z.abs p * q + absolute_value r end.

(** When the sum of |price| * quantity and the volume fit, the two numbers
    divided are exactly the traded value and the volume, so the average lies
    between the lowest and the highest price. *)
Theorem C56_average_price : forall m l,
  Forall (fun pq => is_i64 (fst pq) /\ 0 <= snd pq <= i64_max) l ->
  absolute_value l <= i64_max -> traded_volume l < two64 ->
  average_parts m l 0 0 = Ret (traded_value l, traded_volume l) /\
  (forall lo hi, Forall (fun pq => lo <= fst pq <= hi) l ->
     lo * traded_volume l <= traded_value l <= hi * traded_volume l).
Proof.
  intros m l Hl Ha Hv. split.
  - assert (G : forall l sum total,
      Forall (fun pq => is_i64 (fst pq) /\ 0 <= snd pq <= i64_max) l ->
      Z.abs sum + absolute_value l <= i64_max -> 0 <= total -> total + traded_volume l < two64 ->
      average_parts m l sum total = Ret (sum + traded_value l, total + traded_volume l)).
    { clear. induction l as [|[p q] l IH]; intros sum total Hl Hs Ht Hv; cbn [average_parts traded_value traded_volume].
      - rewrite !Z.add_0_r. reflexivity.
      - inversion Hl as [|x y [Hp Hq] Hr]; subst. cbn [fst snd absolute_value traded_volume] in *.
        assert (A0 : 0 <= absolute_value l).
        { clear - Hr. induction Hr as [|[p q] l [_ Hq] _ IHr]; cbn [absolute_value]; [lia|]. cbn in Hq. nia. }
        assert (V0 : 0 <= traded_volume l).
        { clear - Hr. induction Hr as [|[p q] l [_ Hq] _ IHr]; cbn [traded_volume]; [lia|]. cbn in Hq. lia. }
        assert (PQ : Z.abs (p * q) = Z.abs p * q) by (rewrite Z.abs_mul, (Z.abs_eq q) by lia; reflexivity).
        rewrite u64_as_i64_small by lia.
        assert (I : i64_min = - i64_max - 1) by reflexivity.
        rewrite i64_result_ok by (unfold is_i64; lia). cbn [obind].
        rewrite i64_result_ok by (unfold is_i64; lia). cbn [obind].
        rewrite uadd_ok by lia. cbn [obind].
        rewrite IH; try assumption; try lia.
        f_equal. f_equal; lia. }
    rewrite (G l 0 0 Hl); try (cbn; lia). reflexivity.
  - intros lo hi HF. induction l as [|[p q] l IH]; cbn [traded_value traded_volume]; [lia|].
    inversion Hl as [|x y [Hp Hq] Hr]; subst. inversion HF as [|x y Hb Hr']; subst.
    cbn [fst snd absolute_value traded_volume] in *.
    assert (0 <= Z.abs p * q) by nia.
    specialize (IH Hr ltac:(lia) ltac:(lia) Hr'). nia.
Qed.
Print Assumptions C56_average_price.

Example C56_hypotheses_met :
  absolute_value [(100, 3); (-50, 2); (7, 1)] <= i64_max /\
  average_parts Checked [(100, 3); (-50, 2); (7, 1)] 0 0 = Ret (207, 6).
Proof. split; [vm_compute; discriminate|reflexivity]. Qed.

(** Refuted in general: a history without trades divides zero by zero (NaN),
    and large trades panic or wrap to a negative value. *)
Theorem C56_average_price_refuted :
  (forall m, average_parts m [] 0 0 = Ret (0, 0)) /\
  average_parts Checked [(4000000000, 4000000000)] 0 0 = Panic /\
  average_parts Wrapping [(4000000000, 4000000000)] 0 0 = Ret (-2446744073709551616, 4000000000).
Proof. repeat split; reflexivity. Qed.
Print Assumptions C56_average_price_refuted.
