(** NumProps.v -- properties C23-C31: number and clock fields of exchange messages.

    A field is given as the slice [slice_of text rest extra]: the characters
    [text], followed in memory by arbitrary bytes [rest], of which [extra] lie
    inside the allocation.  [= Ret v] says: no panic, no read past the
    allocation, and the value does not depend on [rest]. *)
From Coq Require Import ZArith List Lia Bool.
From Verif Require Import Base NumModel NumSpec NumProofs NumConv.
Import ListNotations.
Open Scope Z_scope.

Definition memory (rest : nat -> Z) : Prop := forall i, is_byte (rest i).

Lemma slice_of_bytes : forall l rest extra, Forall is_byte l -> memory rest -> all_bytes (slice_of l rest extra).
Proof.
  intros l rest extra F R i. unfold slice_of; cbn [s_at].
  destruct (nth_error l i) as [b|] eqn:E; [|apply R].
  rewrite Forall_forall in F. apply F. apply nth_error_In in E. exact E.
Qed.

Lemma slice_of_shows : forall l rest extra, shows (slice_of l rest extra) 0 l.
Proof.
  intros l rest extra. unfold shows, bytes_of.
  apply (nth_ext _ _ 0 0); [rewrite map_length, seq_length; reflexivity|].
  intros n H. rewrite map_length, seq_length in H.
  rewrite (nth_indep _ 0 (s_at (slice_of l rest extra) 0)) by (rewrite map_length, seq_length; exact H).
  rewrite map_nth, seq_nth by exact H. cbn [slice_of s_at Nat.add].
  rewrite (nth_error_nth' l 0 H). reflexivity.
Qed.

Lemma digits_bytes : forall l, Forall (fun b => 48 <= b <= 57) l -> Forall is_byte l.
Proof. intros l. apply Forall_impl. unfold is_byte. lia. Qed.

Lemma written_bytes : forall i p v, Forall is_byte (written i p v).
Proof.
  intros i p v. unfold written. destruct p; [apply digits_bytes, digit_chars_digits|].
  apply Forall_app; split; [apply digits_bytes, digit_chars_digits|].
  constructor; [unfold is_byte; lia|]. apply digits_bytes, digit_chars_digits.
Qed.

Lemma written_length : forall i p v, length (written i p v) = (i + p)%nat.
Proof.
  intros i p v. unfold written. destruct p; [rewrite digit_chars_length; lia|].
  rewrite !app_length, !digit_chars_length. cbn [length]. lia.
Qed.

(** * C23  Unsigned digit fields *)
Theorem C23_digit_field_reads_its_number : forall m v rest extra, memory rest ->
  (forall n, (1 <= n <= 8)%nat -> 0 <= v < 10 ^ Z.of_nat n -> (8 <= n + extra)%nat ->
     parse_under8 m (slice_of (digit_chars n v) rest extra) n = Ret v) /\
  (forall n, (1 <= n <= 16)%nat -> 0 <= v < 10 ^ Z.of_nat n -> (16 <= n + extra)%nat ->
     parse_under16 m (slice_of (digit_chars n v) rest extra) n = Ret v) /\
  (forall n, (17 <= n <= 32)%nat -> 0 <= v < 10 ^ Z.of_nat n -> (32 <= n + extra)%nat ->
     parse_under32 m (slice_of (digit_chars n v) rest extra) n = Ret v).
Proof.
  intros m v rest extra R.
  assert (A : forall n, all_bytes (slice_of (digit_chars n v) rest extra))
    by (intros n; apply slice_of_bytes; [apply digits_bytes, digit_chars_digits | exact R]).
  assert (B : forall n, bytes_of (slice_of (digit_chars n v) rest extra) 0 n = digit_chars n v).
  { intros n. pose proof (slice_of_shows (digit_chars n v) rest extra) as S. unfold shows in S.
    rewrite digit_chars_length in S. exact S. }
  repeat split; intros n Hn Hv C.
  - rewrite parse_under8_ok by (try apply A; unfold slice_of; cbn [s_cap]; rewrite ?digit_chars_length; lia).
    rewrite B, dec_digit_chars by exact Hv. reflexivity.
  - rewrite parse_under16_ok by (try apply A; unfold slice_of; cbn [s_cap]; rewrite ?digit_chars_length; lia).
    rewrite B, dec_digit_chars by exact Hv. reflexivity.
  - rewrite parse_under32_ok by (try apply A; unfold slice_of; cbn [s_cap s_len]; rewrite ?digit_chars_length; lia).
    rewrite B, dec_digit_chars by exact Hv. reflexivity.
Qed.
Print Assumptions C23_digit_field_reads_its_number.

Example C23_hypotheses_met :
  digit_chars 5 1379 = [48; 49; 51; 55; 57] /\
  parse_under8 Wrapping (slice_of (digit_chars 5 1379) (fun _ => 255) 3) 5 = Ret 1379 /\
  parse_under16 Checked (slice_of (digit_chars 12 999999999999) (fun i => Z.of_nat i mod 256) 4) 12 = Ret 999999999999 /\
  parse_under32 Checked (slice_of (digit_chars 18 123456789012345678) (fun _ => 0) 14) 18 = Ret 123456789012345678.
Proof. vm_compute. repeat split. Qed.

(** * C24  Fields with a decimal point *)
Theorem C24_point_is_removed : forall m i p v rest extra, memory rest ->
  (1 <= i + (p - 1))%nat -> 0 <= v < capacity i p ->
  ((i + p <= 8)%nat -> (8 <= i + p + extra)%nat ->
     parse_under8_fp m (slice_of (written i p v) rest extra) (i + p) p = Ret v) /\
  ((i + p <= 16)%nat -> (16 <= i + p + extra)%nat ->
     parse_under16_fp m (slice_of (written i p v) rest extra) (i + p) p = Ret v) /\
  ((17 <= i + p <= 18)%nat -> (i, p) <> (16, 1)%nat -> (32 <= i + p + extra)%nat ->
     parse_under32_fp m (slice_of (written i p v) rest extra) (i + p) p = Ret v).
Proof.
  intros m i p v rest extra R Hd Hv.
  assert (A : all_bytes (slice_of (written i p v) rest extra))
    by (apply slice_of_bytes; [apply written_bytes | exact R]).
  assert (V : dec (undotted (slice_of (written i p v) rest extra) 0 (i + p) p) = v)
    by (apply written_undotted; [apply slice_of_shows | exact Hv]).
  assert (L : s_len (slice_of (written i p v) rest extra) = (i + p)%nat) by (cbn [slice_of s_len]; apply written_length).
  assert (K : s_cap (slice_of (written i p v) rest extra) = (i + p + extra)%nat)
    by (cbn [slice_of s_cap]; rewrite written_length; reflexivity).
  repeat split.
  - intros H C. rewrite parse_under8_fp_ok; [rewrite V; reflexivity | exact A | lia | lia | | lia].
    intros E. rewrite L. lia.
  - intros H C. rewrite parse_under16_fp_ok; [rewrite V; reflexivity | exact A | lia | lia | | lia].
    intros E. rewrite L. lia.
  - intros H N C. rewrite parse_under32_fp_ok; [rewrite V; reflexivity | exact A | lia | lia | | lia | lia].
    intros E. rewrite L. split; [|lia]. destruct (Nat.eq_dec i 16) as [->|]; [|lia]. subst p. congruence.
Qed.
Print Assumptions C24_point_is_removed.

Example C24_hypotheses_met :
  written 3 3 12345 = [49; 50; 51; 46; 52; 53] /\ written 0 7 123456 = [46; 49; 50; 51; 52; 53; 54] /\
  parse_under8_fp Checked (slice_of (written 3 3 12345) (fun _ => 57) 2) 6 3 = Ret 12345 /\
  parse_under8_fp Checked (slice_of (written 0 7 123456) (fun _ => 57) 1) 7 7 = Ret 123456 /\
  parse_under32_fp Wrapping (slice_of (written 16 2 12345678901234567) (fun _ => 57) 14) 18 2 = Ret 12345678901234567.
Proof. vm_compute. repeat split. Qed.

(** Seventeen characters ending in the point ("1234567890123456."): the
    remainder after the first 16 digits is empty; checked builds panic, release
    builds add whatever follows the field in memory. *)
Theorem C24_trailing_point_17_refuted :
  parse_under32_fp Checked (slice_of (written 16 1 1234567890123456) (fun _ => 48) 15) 17 1 = Panic /\
  parse_under32_fp Wrapping (slice_of (written 16 1 1234567890123456) (fun _ => 48) 15) 17 1
  <> parse_under32_fp Wrapping (slice_of (written 16 1 1234567890123456) (fun _ => 49) 15) 17 1.
Proof. split; [vm_compute; reflexivity | vm_compute; discriminate]. Qed.
Print Assumptions C24_trailing_point_17_refuted.

(** * C25  Converters read back the field they are configured for *)

(** Columns in front of the digits, and columns that are parsed. *)
Definition lead (c : num_cfg) : nat := (bool_nat (is_signed c) + unused_length c)%nat.
Definition kept_point (c : num_cfg) : nat := if drop_decimal_point c then 0%nat else decimal_point_length c.
Definition width (c : num_cfg) : nat := (digit_length c + kept_point c)%nat.

(** The configurations the claim covers. *)
Definition supported (c : num_cfg) : Prop :=
  (1 <= digit_length c + (kept_point c - 1))%nat /\ (lead c <= width c)%nat /\
  (kept_point c = 1%nat -> (lead c <= 1)%nat /\ width c <> 17%nat) /\
  (17 <= width c -> lead c + 16 <= width c)%nat.

(** What the conversion should give: the number in units of the last parsed
    column (the decimals are cut off when the configuration drops them). *)
Definition expected (c : num_cfg) (v : Z) : Z :=
  Z.sgn v * (if drop_decimal_point c then Z.abs v / 10 ^ Z.of_nat (decimal_point_length c - 1) else Z.abs v).

Lemma supported_usable : forall c cv, converter_new c = ROk cv -> supported c -> cv_usable cv = true.
Proof.
  intros c cv N [S1 [S2 [S3 S4]]].
  destruct (converter_new_made c cv N) as [M [Ec [Es [Ep [El Et]]]]].
  unfold supported, lead, width, kept_point in *. unfold cv_usable.
  rewrite Es, Ep, El.
  set (ld := (bool_nat (is_signed c) + unused_length c)%nat) in *.
  set (pt := if drop_decimal_point c then 0%nat else decimal_point_length c) in *.
  rewrite !andb_true_iff. repeat split; try (apply Nat.leb_le; lia).
  - destruct (Nat.eqb_spec pt 1) as [E|E]; [|reflexivity].
    destruct (S3 E). rewrite !andb_true_iff. repeat split; try (apply Nat.leb_le; lia).
    apply negb_true_iff, Nat.eqb_neq. lia.
  - destruct (Nat.leb_spec (digit_length c + pt) 16); [reflexivity|]. apply Nat.leb_le. lia.
Qed.

Lemma field_text_length : forall c pad v, length pad = unused_length c ->
  length (field_text (is_signed c) pad (digit_length c) (decimal_point_length c) v)
  = (lead c + digit_length c + decimal_point_length c)%nat.
Proof.
  intros c pad v H. unfold field_text, lead. rewrite !app_length, written_length, H.
  destruct (is_signed c); cbn [length bool_nat]; lia.
Qed.

Lemma field_text_bytes : forall s pad i p v, Forall is_byte pad -> Forall is_byte (field_text s pad i p v).
Proof.
  intros s pad i p v F. unfold field_text. apply Forall_app; split.
  - destruct s; constructor; [|constructor]. unfold sign_char, is_byte. destruct (v <? 0); lia.
  - apply Forall_app; split; [exact F | apply written_bytes].
Qed.

Lemma written_prefix : forall u a i p v, shows u a (written i p v) -> shows u a (digit_chars i (v / 10 ^ Z.of_nat (p - 1))).
Proof.
  intros u a i p v Sh. unfold written in Sh. destruct p as [|d].
  - cbn [Nat.sub]. change (10 ^ Z.of_nat 0) with 1. rewrite Z.div_1_r. exact Sh.
  - replace (S d - 1)%nat with d by lia. apply shows_app in Sh. apply Sh.
Qed.

Lemma to_u64_field : forall m c cv pad v rest extra,
  converter_new c = ROk cv -> supported c -> memory rest ->
  Forall is_byte pad -> length pad = unused_length c ->
  Z.abs v < capacity (digit_length c) (decimal_point_length c) ->
  (lead c + read_width (width c) <= total_length c + extra)%nat ->
  to_u64 m cv (slice_of (field_text (is_signed c) pad (digit_length c) (decimal_point_length c) v) rest extra)
  = Ret (if drop_decimal_point c then Z.abs v / 10 ^ Z.of_nat (decimal_point_length c - 1) else Z.abs v).
Proof.
  intros m c cv pad v rest extra N Su R Fp Lp Hv Hx.
  pose proof (supported_usable c cv N Su) as Us.
  destruct (converter_new_made c cv N) as [M [Ec [Es [Ep [El Et]]]]].
  assert (Ml : (cv_length cv <= 18)%nat) by apply M.
  destruct Su as [S1 [S2 [S3 S4]]].
  unfold width, kept_point in *.
  set (txt := field_text (is_signed c) pad (digit_length c) (decimal_point_length c) v) in *.
  assert (Lt : length txt = (lead c + digit_length c + decimal_point_length c)%nat)
    by (apply field_text_length; exact Lp).
  rewrite to_u64_ok; try assumption.
  - f_equal. rewrite Es, Ep, El. fold (lead c).
    pose proof (slice_of_shows txt rest extra) as Sh. unfold txt at 2 in Sh. unfold field_text in Sh.
    rewrite app_assoc in Sh. apply shows_app in Sh. destruct Sh as [_ Sh].
    assert (LL : length ((if is_signed c then [sign_char v] else []) ++ pad) = lead c).
    { rewrite app_length, Lp. unfold lead. destruct (is_signed c); reflexivity. }
    rewrite LL in Sh. cbn [Nat.add] in Sh.
    assert (Pd : 0 < 10 ^ Z.of_nat (decimal_point_length c - 1)) by (apply Z.pow_pos_nonneg; lia).
    destruct (drop_decimal_point c).
    + apply written_prefix in Sh. unfold undotted. rewrite Nat.add_0_r. unfold shows in Sh.
      rewrite digit_chars_length in Sh. rewrite Sh. apply dec_digit_chars.
      unfold capacity in Hv. rewrite Nat2Z.inj_add, Z.pow_add_r in Hv by lia.
      split; [apply Z.div_pos; lia|]. apply Z.div_lt_upper_bound; lia.
    + apply written_undotted; [exact Sh|]. split; [lia | exact Hv].
  - apply slice_of_bytes; [apply field_text_bytes; exact Fp | exact R].
  - cbn [slice_of s_len]. rewrite Lt, El. destruct (drop_decimal_point c); lia.
  - cbn [slice_of s_cap]. rewrite Es, El, Lt. fold (lead c). unfold lead in *. lia.
Qed.

Theorem C25_converter_reads_its_field : forall m c cv pad v rest extra,
  converter_new c = ROk cv -> supported c -> memory rest ->
  Forall is_byte pad -> length pad = unused_length c ->
  Z.abs v < capacity (digit_length c) (decimal_point_length c) ->
  (lead c + read_width (width c) <= total_length c + extra)%nat ->
  (is_signed c = true \/ 0 <= v) ->
  (0 <= v ->
   to_u64 m cv (slice_of (field_text (is_signed c) pad (digit_length c) (decimal_point_length c) v) rest extra)
   = Ret (expected c v)) /\
  to_i64 m cv (slice_of (field_text (is_signed c) pad (digit_length c) (decimal_point_length c) v) rest extra)
  = Ret (expected c v).
Proof.
  intros m c cv pad v rest extra N Su R Fp Lp Hv Hx Sg.
  pose proof (to_u64_field m c cv pad v rest extra N Su R Fp Lp Hv Hx) as U.
  destruct (converter_new_made c cv N) as [M [Ec [Es [Ep [El Et]]]]].
  assert (Ml : (cv_length cv <= 18)%nat) by apply M.
  set (txt := field_text (is_signed c) pad (digit_length c) (decimal_point_length c) v) in *.
  set (x := if drop_decimal_point c then Z.abs v / 10 ^ Z.of_nat (decimal_point_length c - 1) else Z.abs v) in *.
  assert (Pd : 0 < 10 ^ Z.of_nat (decimal_point_length c - 1)) by (apply Z.pow_pos_nonneg; lia).
  assert (X : 0 <= x < 2 ^ 63).
  { change (2 ^ 63) with 9223372036854775808. unfold x.
    assert (T : 10 ^ 18 = 1000000000000000000) by reflexivity.
    destruct (drop_decimal_point c).
    - unfold capacity in Hv. rewrite Nat2Z.inj_add, Z.pow_add_r in Hv by lia.
      assert (P : 10 ^ Z.of_nat (digit_length c) <= 10 ^ 18) by (apply Z.pow_le_mono_r; lia).
      split; [apply Z.div_pos; lia|].
      apply Z.lt_le_trans with (10 ^ Z.of_nat (digit_length c)); [apply Z.div_lt_upper_bound; lia | lia].
    - pose proof (capacity_small (digit_length c) (decimal_point_length c) ltac:(lia)). lia. }
  assert (E : expected c v = if v <? 0 then - x else x).
  { unfold expected. fold x. destruct (Z.ltb_spec v 0); [rewrite Z.sgn_neg by lia; lia|].
    destruct (Z.eq_dec v 0) as [->|]; [|rewrite Z.sgn_pos by lia; lia].
    cbn [Z.sgn]. unfold x. cbn [Z.abs]. destruct (drop_decimal_point c); [rewrite Z.div_0_l by lia|]; reflexivity. }
  split.
  - intros P. rewrite U, E. destruct (Z.ltb_spec v 0); [lia | reflexivity].
  - unfold to_i64. rewrite Ec, U. cbn [obind]. destruct (is_signed c) eqn:Is.
    + assert (I : index (slice_of txt rest extra) 0 = Ret (sign_char v)) by reflexivity.
      rewrite I. cbn [obind]. rewrite E. unfold sign_char. destruct (Z.ltb_spec v 0).
      * change (45 =? 48) with false. cbv iota. f_equal.
        destruct (Z.eq_dec x 0) as [->|]; [reflexivity | apply as_i64_neg; lia].
      * change (48 =? 48) with true. cbv iota. rewrite as_i64_small by exact X. reflexivity.
    + destruct Sg as [Sg|Sg]; [discriminate Sg|]. rewrite E. destruct (Z.ltb_spec v 0); [lia|].
      rewrite as_i64_small by exact X. reflexivity.
Qed.
Print Assumptions C25_converter_reads_its_field.

(** krx base derivative price: sign, five digits, point, two decimals. *)
Definition cfg_example : num_cfg := NumCfg 5 3 true 0 9 false.
Example C25_hypotheses_met :
  supported cfg_example /\
  field_text true [] 5 3 (-137970) = [45; 48; 49; 51; 55; 57; 46; 55; 48] /\
  (let! r := match converter_new cfg_example with
             | ROk cv => to_i64 Checked cv (slice_of (field_text true [] 5 3 (-137970)) (fun _ => 255) 0)
             | RErr => Panic end in Ret r) = Ret (-137970).
Proof.
  split; [|split; vm_compute; reflexivity].
  unfold supported, lead, width, kept_point; cbn. lia.
Qed.

(** The whole claim, without [supported], is false: a configuration that
    [new] accepts and whose conversion panics on every input of the configured
    length, in both builds (the end index forgets the leading columns). *)
Theorem C25_every_accepted_config_refuted : exists c cv,
  check_validity c = true /\ converter_new c = ROk cv /\
  forall m u, s_len u = total_length c -> to_u64 m cv u = Panic.
Proof.
  exists (NumCfg 2 0 false 5 7 false). eexists. split; [reflexivity|]. split; [reflexivity|].
  intros m u L. unfold to_u64, subslice. cbn. reflexivity.
Qed.
Print Assumptions C25_every_accepted_config_refuted.

(** * C26  The sign column: only '0' means "not negative" *)
Theorem C26_sign_column : forall m cv u x, is_signed (cv_cfg cv) = true -> (0 < s_len u)%nat ->
  to_u64 m cv u = Ret x -> 0 < x <= i64_max ->
  to_i64 m cv u = Ret (if s_at u 0 =? 48 then x else - x).
Proof.
  intros m cv u x S L U H. unfold to_i64, index. rewrite S, U.
  rewrite (proj2 (Nat.ltb_lt 0 (s_len u))) by exact L. cbn [obind].
  unfold i64_max in H.
  destruct (s_at u 0 =? 48).
  - rewrite as_i64_small; [reflexivity|]. change (2 ^ 63) with 9223372036854775808. lia.
  - rewrite as_i64_neg; [reflexivity|]. change (2 ^ 63) with 9223372036854775808. lia.
Qed.
Print Assumptions C26_sign_column.

(** In particular a digit other than 0 in the sign column (an overflowing
    positive number) or a '+' turns the number negative. *)
Theorem C26_plus_sign_refuted : forall m, exists cv,
  converter_new cfg_example = ROk cv /\
  to_i64 m cv (slice_of [43; 48; 49; 51; 55; 57; 46; 55; 48] (fun _ => 48) 0) = Ret (-137970).
Proof. intros m. eexists. split; [reflexivity|]. destruct m; vm_compute; reflexivity. Qed.
Print Assumptions C26_plus_sign_refuted.
Example C26_hypotheses_met : exists cv, converter_new cfg_example = ROk cv /\ is_signed (cv_cfg cv) = true /\
  to_u64 Checked cv (slice_of (field_text true [] 5 3 (-137970)) (fun _ => 255) 0) = Ret 137970.
Proof. eexists. split; [reflexivity|]. split; [reflexivity | vm_compute; reflexivity]. Qed.

(** * C27  The [_unchecked] conversions agree with the checked ones *)

(** Configurations that are plain digits from the first column on. *)
Definition plain (c : num_cfg) : Prop :=
  is_signed c = false /\ unused_length c = 0%nat /\ (drop_decimal_point c = true \/ decimal_point_length c = 0%nat).

Theorem C27_unchecked_agrees_on_plain_fields : forall m c cv u,
  converter_new c = ROk cv -> plain c -> all_bytes u -> (total_length c <= s_len u)%nat ->
  (1 <= digit_length c)%nat -> (32 <= s_cap u)%nat ->
  ((digit_length c <= 16)%nat -> to_u64_unchecked m cv u = to_u64 m cv u /\ to_nonnegative_i64_unchecked m cv u = to_i64 m cv u) /\
  ((digit_length c <= 8)%nat -> to_u32_unchecked m cv u = to_u64 m cv u) /\
  ((17 <= digit_length c)%nat -> to_long_u64_unchecked m cv u = to_u64 m cv u).
Proof.
  intros m c cv u N [P1 [P2 P3]] A L D C.
  destruct (converter_new_made c cv N) as [M [Ec [Es [Ep [El Et]]]]].
  assert (Ml : (cv_length cv <= 18)%nat) by apply M.
  assert (Z0 : (if drop_decimal_point c then 0 else decimal_point_length c)%nat = 0%nat)
    by (destruct P3 as [->| ->]; [reflexivity | destruct (drop_decimal_point c); reflexivity]).
  rewrite Z0 in *. rewrite Nat.add_0_r in El.
  rewrite P1, P2 in Es. cbn in Es.
  assert (Us : cv_usable cv = true).
  { unfold cv_usable. rewrite Es, Ep, El. cbn [Nat.eqb].
    rewrite !andb_true_iff. repeat split; try (apply Nat.leb_le; lia).
    destruct (Nat.leb_spec (digit_length c) 16); [reflexivity|]. apply Nat.leb_le. lia. }
  assert (U : to_u64 m cv u = Ret (dec (bytes_of u 0 (digit_length c)))).
  { rewrite to_u64_ok; try assumption.
    - rewrite Es, Ep, El. reflexivity.
    - rewrite El. lia.
    - rewrite Es. unfold read_width. destruct (_ <=? 8)%nat; [lia|]. destruct (_ <=? 16)%nat; lia. }
  pose proof (dec_u64 (bytes_of u 0 (digit_length c)) (bytes_of_bytes _ _ _ A)) as B.
  rewrite bytes_of_length in B.
  repeat split.
  - rewrite U. unfold to_u64_unchecked. rewrite El, parse_under16_ok by (assumption || lia). cbn [obind].
    rewrite Z.mod_small by (unfold two64; lia). reflexivity.
  - unfold to_i64, to_nonnegative_i64_unchecked, to_u64_unchecked. rewrite Ec, P1, U.
    rewrite El, parse_under16_ok by (assumption || lia). cbn [obind].
    rewrite Z.mod_small by (unfold two64; lia). reflexivity.
  - intros H8. rewrite U. unfold to_u32_unchecked. rewrite El, parse_under8_ok by (assumption || lia). cbn [obind].
    rewrite Z.mod_small; [reflexivity|].
    pose proof (dec_bound (bytes_of u 0 (digit_length c)) (bytes_of_bytes _ _ _ A)) as B2.
    rewrite bytes_of_length in B2.
    assert (10 ^ Z.of_nat (digit_length c) <= 10 ^ 8) by (apply Z.pow_le_mono_r; lia).
    change (10 ^ 8) with 100000000 in H. change (2 ^ 32) with 4294967296. lia.
  - intros H17. rewrite U. unfold to_long_u64_unchecked. rewrite El, parse_under32_ok by (assumption || lia). cbn [obind].
    rewrite Z.mod_small by (unfold two64; lia). reflexivity.
Qed.
Print Assumptions C27_unchecked_agrees_on_plain_fields.

Example C27_hypotheses_met : exists cv,
  converter_new (NumCfg 12 0 false 0 12 false) = ROk cv /\ plain (NumCfg 12 0 false 0 12 false) /\
  to_u64_unchecked Checked cv (slice_of (digit_chars 12 21511) (fun _ => 57) 20) = Ret 21511.
Proof. eexists. split; [reflexivity|]. split; [repeat split; right; reflexivity | vm_compute; reflexivity]. Qed.

(** With unused columns (the stock price field: 2 unused + 9 digits), a sign or
    a point, the unchecked conversion returns a different number. *)
Theorem C27_unchecked_on_other_fields_refuted :
  (exists cv, converter_new (NumCfg 9 0 false 2 11 false) = ROk cv /\
     forall m, to_i64 m cv (slice_of (digit_chars 11 66500) (fun _ => 48) 8) = Ret 66500 /\
               to_nonnegative_i64_unchecked m cv (slice_of (digit_chars 11 66500) (fun _ => 48) 8) = Ret 665) /\
  (exists cv, converter_new cfg_example = ROk cv /\
     forall m, to_i64 m cv (slice_of (field_text true [] 5 3 212) (fun _ => 48) 8) = Ret 212 /\
               to_nonnegative_i64_unchecked m cv (slice_of (field_text true [] 5 3 212) (fun _ => 48) 8) = Ret 341).
Proof.
  split; eexists; (split; [reflexivity|]); intros m; destruct m; split; vm_compute; reflexivity.
Qed.
Print Assumptions C27_unchecked_on_other_fields_refuted.

(** * C28  Clock fields *)
Lemma clock_text_length : forall h mi s us, length (clock_text h mi s us) = 12%nat.
Proof. intros. unfold clock_text. rewrite !app_length, !digit_chars_length. reflexivity. Qed.
Lemma clock_text_bytes : forall h mi s us, Forall is_byte (clock_text h mi s us).
Proof. intros. unfold clock_text. rewrite !Forall_app. repeat split; apply digits_bytes, digit_chars_digits. Qed.

(** The reading of the clock before the date is settled. *)
Lemma clock_fields : forall h mi s us rest extra, clock_ok h mi s us -> memory rest ->
  let u := slice_of (clock_text h mi s us) rest extra in
  all_bytes u /\ dec (bytes_of u 0 2) = h /\ dec (bytes_of u 2 2) = mi /\ dec (bytes_of u 4 2) = s /\
  dec (bytes_of u 6 6) = us.
Proof.
  intros h mi s us rest extra [H1 [H2 [H3 H4]]] R u.
  pose proof (slice_of_shows (clock_text h mi s us) rest extra) as Sh. fold u in Sh.
  unfold clock_text in Sh. repeat rewrite shows_app in Sh. rewrite !digit_chars_length in Sh.
  destruct Sh as [S1 [S2 [S3 S4]]]. unfold shows in S1, S2, S3, S4. rewrite !digit_chars_length in *.
  cbn [Nat.add] in *. rewrite S1, S2, S3, S4.
  split; [apply slice_of_bytes; [apply clock_text_bytes | exact R]|].
  change (10 ^ Z.of_nat 2) with 100. repeat split; apply dec_digit_chars; cbn; lia.
Qed.

Theorem C28_clock_reading : forall m offset h mi s us rest extra dg,
  clock_ok h mi s us -> memory rest -> (2 <= extra)%nat ->
  0 <= offset -> 0 <= dg_date dg -> 0 <= dg_prev dg ->
  dg_date dg + offset + 2 * day_nanos < two64 -> dg_prev dg + 2 * day_nanos < two64 ->
  dg_date dg + dg_prev dg + 2 * day_nanos < two64 ->
  let local := dg_date dg + clock_nanos h mi s us + offset in
  exists k, 0 <= k /\
    parse_hhmmssuuuuuu m offset (slice_of (clock_text h mi s us) rest extra) dg
    = Ret (local + k * day_nanos, DateGen (dg_date dg + k * day_nanos) (local + k * day_nanos)) /\
    dg_prev dg < local + k * day_nanos + 15 * hour_nanos /\
    (k = 0 \/ local + (k - 1) * day_nanos + 15 * hour_nanos <= dg_prev dg).
Proof.
  intros m offset h mi s us rest extra dg Hc R Hx O D P B1 B2 B3 local.
  destruct (clock_fields h mi s us rest extra Hc R) as [A [F1 [F2 [F3 F4]]]].
  set (u := slice_of (clock_text h mi s us) rest extra) in *.
  assert (Lu : s_len u = 12%nat) by (unfold u; cbn [slice_of s_len]; apply clock_text_length).
  assert (Cu : s_cap u = (12 + extra)%nat) by (unfold u; cbn [slice_of s_cap]; rewrite clock_text_length; reflexivity).
  destruct Hc as [H1 [H2 [H3 H4]]].
  unfold parse_hhmmssuuuuuu.
  rewrite subslice_ok by lia. cbn [obind].
  rewrite parse_under8_ok by (try apply shifted_bytes; try exact A; cbn [s_cap]; lia). cbn [obind].
  rewrite bytes_of_shift. cbn [Nat.add]. rewrite F4.
  rewrite umul_ok by (unfold two64; lia). cbn [obind].
  rewrite subslice_ok by lia. cbn [obind].
  rewrite hhmmss_ok by (try apply shifted_bytes; try exact A; cbn [s_cap]; lia). cbn [obind].
  rewrite !bytes_of_shift. cbn [Nat.add]. rewrite F1, F2, F3.
  unfold local, clock_nanos in *. unfold day_nanos, hour_nanos, second_nanos in *.
  rewrite uadd_ok by (unfold two64 in *; lia). cbn [obind].
  rewrite uadd_ok by (unfold two64 in *; lia). cbn [obind].
  rewrite uadd_ok by (unfold two64 in *; lia). cbn [obind].
  set (cur := us * 1000 + (h * 3600 + mi * 60 + s) * 1000000000 + offset + dg_date dg).
  replace (dg_date dg + (((h * 60 + mi) * 60 + s) * 1000000000 + us * 1000) + offset) with cur by (unfold cur; ring).
  assert (Cb : dg_date dg + offset <= cur < dg_date dg + offset + 24 * (3600 * 1000000000)) by (unfold cur; lia).
  destruct (rollover_ok m rollover_fuel (dg_prev dg) (dg_date dg) cur) as [k [K0 [K1 [K2 K3]]]];
    [lia | lia | lia | | | |].
  - right. unfold rollover_fuel, day_nanos, hour_nanos, second_nanos. rewrite Z2Nat.id by lia. unfold two64 in *. lia.
  - unfold day_nanos, hour_nanos, second_nanos. lia.
  - unfold day_nanos, hour_nanos, second_nanos. lia.
  - unfold fifteen_hours, day_nanos, hour_nanos, second_nanos in *.
    exists k. split; [exact K0|]. rewrite K1. cbn [obind]. repeat split; [exact K2 | exact K3].
Qed.
Print Assumptions C28_clock_reading.

Example C28_hypotheses_met :
  clock_text 10 49 39 829612 = [49; 48; 52; 57; 51; 57; 56; 50; 57; 54; 49; 50] /\
  clock_ok 10 49 39 829612 /\
  parse_hhmmssuuuuuu Checked (9 * hour_nanos) (slice_of (clock_text 10 49 39 829612) (fun _ => 48) 2)
    (DateGen 1703721600000000000 0)
  = Ret (1703721600000000000 + 71379829612000, DateGen 1703721600000000000 (1703721600000000000 + 71379829612000)).
Proof. split; [reflexivity|]. split; [unfold clock_ok; lia | vm_compute; reflexivity]. Qed.

(** * C29  A stream of messages around midnight *)

(** Feed clock readings one after the other through one date generator. *)
Fixpoint stamps (m : build) (offset : Z) (dg : date_gen) (us : list slice) : outcome (list Z) :=
  match us with
  | [] => Ret []
  | u :: r => let! (t, dg') := parse_hhmmssuuuuuu m offset u dg in
              let! ts := stamps m offset dg' r in Ret (t :: ts)
  end.

(** The clock field the exchange sends at local time [T] (nanoseconds since
    the epoch in local time, whole microseconds). *)
Definition message_at (T : Z) (u : slice) : Prop :=
  exists h mi s us rest extra, clock_ok h mi s us /\ T mod day_nanos = clock_nanos h mi s us /\
    memory rest /\ (2 <= extra)%nat /\ u = slice_of (clock_text h mi s us) rest extra.

(** Chronological, and no pause of more than nine hours. *)
Fixpoint flowing (T : Z) (Ts : list Z) : Prop :=
  match Ts with [] => True | T' :: r => T <= T' <= T + 9 * hour_nanos /\ flowing T' r end.

Lemma flowing_step : forall m offset T T' u dg,
  0 <= offset < day_nanos -> 0 <= T -> T <= T' <= T + 9 * hour_nanos ->
  2 * T' + 6 * day_nanos < two64 ->
  dg_date dg = T / day_nanos * day_nanos -> dg_prev dg = T + offset -> message_at T' u ->
  parse_hhmmssuuuuuu m offset u dg
  = Ret (T' + offset, DateGen (T' / day_nanos * day_nanos) (T' + offset)).
Proof.
  intros m offset T T' u dg Ho HT Hg Hb Ed Ep [h [mi [s [us [rest [extra [Hc [Hm [R [Hx ->]]]]]]]]]].
  assert (Dp : 0 < day_nanos) by (unfold day_nanos, hour_nanos, second_nanos; lia).
  pose proof (Z.div_mod T day_nanos ltac:(lia)) as M1. pose proof (Z.mod_pos_bound T day_nanos Dp) as M2.
  pose proof (Z.div_mod T' day_nanos ltac:(lia)) as M3. pose proof (Z.mod_pos_bound T' day_nanos Dp) as M4.
  assert (Q0 : 0 <= T / day_nanos) by (apply Z.div_pos; lia).
  assert (Q : T' / day_nanos = T / day_nanos \/ T' / day_nanos = T / day_nanos + 1).
  { assert (day_nanos = 24 * hour_nanos) by reflexivity.
    assert (hour_nanos = 3600000000000) by reflexivity. nia. }
  destruct (C28_clock_reading m offset h mi s us rest extra dg) as [k [K0 [K1 [K2 K3]]]];
    try assumption; try lia.
  rewrite <- Hm in *. rewrite K1. rewrite Ed, Ep in *.
  assert (Hd : day_nanos = 86400000000000) by reflexivity.
  assert (Hh : hour_nanos = 3600000000000) by reflexivity.
  set (q := T / day_nanos) in *. set (q' := T' / day_nanos) in *.
  rewrite Hd, Hh in *.
  assert (Kq : k = q' - q).
  { destruct Q as [Q|Q]; rewrite Q in *; nia. }
  rewrite Kq. f_equal. f_equal; [|f_equal]; nia.
Qed.

Theorem C29_stream_is_stamped_exactly : forall m offset T0 T Ts us,
  0 <= offset < day_nanos -> 0 <= T0 -> flowing T0 Ts -> Forall2 message_at Ts us ->
  (forall x, In x Ts -> 2 * x + 6 * day_nanos < two64) ->
  T = T0 / day_nanos * day_nanos ->
  stamps m offset (DateGen T (T0 + offset)) us = Ret (map (fun x => x + offset) Ts).
Proof.
  intros m offset T0 T Ts us Ho HT Fl F2 Hb ->.
  revert T0 HT Fl. induction F2 as [|T' u Ts us M F2 IH]; intros T0 HT Fl; [reflexivity|].
  destruct Fl as [G Fl]. cbn [stamps map].
  rewrite (flowing_step m offset T0 T' u) by (try assumption; try reflexivity; apply Hb; left; reflexivity).
  cbn [obind]. rewrite IH; [reflexivity | | lia | exact Fl].
  intros x Hx. apply Hb. right; exact Hx.
Qed.
Print Assumptions C29_stream_is_stamped_exactly.

(** 23:30, then 00:10 and 08:00 of the next day. *)
Example C29_hypotheses_met :
  let d := 19719 * day_nanos in
  flowing (d + clock_nanos 23 30 0 0) [d + day_nanos + clock_nanos 0 10 0 5; d + day_nanos + clock_nanos 8 0 0 0] /\
  message_at (d + day_nanos + clock_nanos 0 10 0 5) (slice_of (clock_text 0 10 0 5) (fun _ => 48) 2) /\
  stamps Checked 0 (DateGen d (d + clock_nanos 23 30 0 0))
    [slice_of (clock_text 0 10 0 5) (fun _ => 48) 2; slice_of (clock_text 8 0 0 0) (fun _ => 48) 2]
  = Ret [d + day_nanos + clock_nanos 0 10 0 5; d + day_nanos + clock_nanos 8 0 0 0].
Proof.
  cbv zeta. split; [|split].
  - cbn [flowing]. unfold clock_nanos, day_nanos, hour_nanos, second_nanos. lia.
  - exists 0, 10, 0, 5, (fun _ => 48), 2%nat. repeat split; try (unfold is_byte; lia); try (unfold clock_ok; lia).
  - vm_compute. reflexivity.
Qed.

(** * C30  Chronological messages get chronological stamps: false over a night *)

(** Last message 15:45, next message 09:00 the following morning: the date is
    not advanced and the second stamp lies before the first. *)
Theorem C30_overnight_gap_refuted : forall m,
  let d := 19719 * day_nanos in
  stamps m (9 * hour_nanos) (DateGen d 0)
    [slice_of (clock_text 15 45 0 0) (fun _ => 48) 2; slice_of (clock_text 9 0 0 0) (fun _ => 48) 2]
  = Ret [d + clock_nanos 15 45 0 0 + 9 * hour_nanos; d + clock_nanos 9 0 0 0 + 9 * hour_nanos].
Proof. intros m. destruct m; vm_compute; reflexivity. Qed.
Print Assumptions C30_overnight_gap_refuted.

(** A message that arrives late across midnight is stamped a day too late. *)
Theorem C30_late_message_refuted : forall m,
  let d := 19719 * day_nanos in
  stamps m 0 (DateGen d (d + clock_nanos 0 0 1 0)) [slice_of (clock_text 23 59 59 0) (fun _ => 48) 2]
  = Ret [d + clock_nanos 23 59 59 0].
Proof. intros m. destruct m; vm_compute; reflexivity. Qed.
Print Assumptions C30_late_message_refuted.

(** What does hold for every stream: each stamp is later than the one before it
    minus fifteen hours, and stamps keep the time of day that was sent. *)
Theorem C30_no_jump_back_by_15_hours_partial : forall m offset h mi s us rest extra dg t dg',
  clock_ok h mi s us -> memory rest -> (2 <= extra)%nat ->
  0 <= offset -> 0 <= dg_date dg -> 0 <= dg_prev dg ->
  dg_date dg + offset + 2 * day_nanos < two64 -> dg_prev dg + 2 * day_nanos < two64 ->
  dg_date dg + dg_prev dg + 2 * day_nanos < two64 -> dg_date dg mod day_nanos = 0 ->
  parse_hhmmssuuuuuu m offset (slice_of (clock_text h mi s us) rest extra) dg = Ret (t, dg') ->
  dg_prev dg < t + 15 * hour_nanos /\ (t - offset) mod day_nanos = clock_nanos h mi s us /\
  dg_prev dg' = t /\ dg_date dg' = t - offset - clock_nanos h mi s us.
Proof.
  intros m offset h mi s us rest extra dg t dg' Hc R Hx O D P B1 B2 B3 Md E.
  destruct (C28_clock_reading m offset h mi s us rest extra dg) as [k [K0 [K1 [K2 K3]]]]; try assumption.
  rewrite K1 in E. injection E as <- <-. cbn [dg_prev dg_date].
  split; [exact K2|]. split; [|split; [reflexivity | ring]].
  replace (dg_date dg + clock_nanos h mi s us + offset + k * day_nanos - offset)
    with (clock_nanos h mi s us + dg_date dg + k * day_nanos) by ring.
  assert (Dp : day_nanos <> 0) by discriminate.
  rewrite Z.mod_add by exact Dp. rewrite <- Zplus_mod_idemp_r, Md, Z.add_0_r.
  apply Z.mod_small. destruct Hc as [H1 [H2 [H3 H4]]].
  unfold clock_nanos, day_nanos, hour_nanos, second_nanos. lia.
Qed.
Print Assumptions C30_no_jump_back_by_15_hours_partial.

(** * C31  The stamp is the UTC instant of the Seoul wall-clock time: false *)

(** On a given date, Seoul shows [h:mi:s] exactly [9h] BEFORE UTC does, so the
    unix time is date + clock - 9h.  The converter configured for Seoul adds
    the nine hours instead, for every message: 18 hours too late. *)
Theorem C31_seoul_offset_refuted : forall m h mi s us rest extra D,
  clock_ok h mi s us -> memory rest -> (2 <= extra)%nat -> 9 * hour_nanos <= D -> D + 4 * day_nanos < two64 ->
  exists dg', parse_hhmmssuuuuuu m (9 * hour_nanos) (slice_of (clock_text h mi s us) rest extra) (DateGen D 0)
    = Ret ((D + clock_nanos h mi s us - 9 * hour_nanos) + 18 * hour_nanos, dg').
Proof.
  intros m h mi s us rest extra D Hc R Hx H1 H2.
  assert (Hd : day_nanos = 86400000000000) by reflexivity.
  assert (Hh : hour_nanos = 3600000000000) by reflexivity.
  destruct (C28_clock_reading m (9 * hour_nanos) h mi s us rest extra (DateGen D 0)) as [k [K0 [K1 [K2 K3]]]];
    try assumption; cbn [dg_date dg_prev] in *; try lia.
  assert (0 <= clock_nanos h mi s us) by (destruct Hc as [? [? [? ?]]]; unfold clock_nanos; lia).
  assert (k = 0) by (destruct K3; [assumption | nia]). subst k.
  eexists. rewrite K1. f_equal. f_equal. lia.
Qed.
Print Assumptions C31_seoul_offset_refuted.
