(** KrxProofs.v -- lemmas about the KRX message parsers. *)
From Coq Require Import ZArith List Lia Bool.
From Verif Require Import Base OBTypes NumModel NumSpec NumProofs NumConv KrxModel KrxSpec.
Import ListNotations.
Open Scope Z_scope.

(** ** Converters, computed *)
Definition price_cfg (p : price_format) : num_cfg :=
  NumCfg (integer_columns p) (point_columns p) true 0 9 false.
Definition price_cv (p : price_format) : converter :=
  Converter (price_cfg p) 1 8 (point_columns p) 8 Under8.
Definition plain_cv (n : nat) (k : parser_kind) : converter := Converter (NumCfg n 0 false 0 n false) 0 n 0 n k.
Definition qty_cv : converter := plain_cv 9 Under16.
Definition cnt_cv : converter := plain_cv 5 Under8.
Definition cum_cv : converter := plain_cv 12 Under16.
Definition deriv_conv (p : price_format) : order_conv := OrderConv (price_cv p) qty_cv.
Definition stock_conv : order_conv :=
  OrderConv (Converter (NumCfg 9 0 false 2 11 false) 2 9 0 9 Under16) cum_cv.

Lemma base_conv : krx_base_derivative_converter = Ret (deriv_conv TwoDecimals). Proof. reflexivity. Qed.
Lemma riskfree_conv : krx_risk_free_derivative_converter = Ret (deriv_conv ThreeDecimals). Proof. reflexivity. Qed.
Lemma stockd_conv : krx_stock_derivative_converter = Ret (deriv_conv NoDecimals). Proof. reflexivity. Qed.
Lemma comm_conv : krx_general_commodity_derivative_converter = Ret (deriv_conv NoDecimals). Proof. reflexivity. Qed.
Lemma stock_conv_ok : krx_stock_converter = Ret stock_conv. Proof. reflexivity. Qed.
Lemma counter_ok : krx_base_order_counter = Ret cnt_cv. Proof. reflexivity. Qed.
Lemma cumconv_ok : krx_base_cum_qnt_converter = Ret cum_cv. Proof. reflexivity. Qed.

(** ** Sub-slices *)
Definition sub (u : slice) (a b : nat) : slice := Slice (fun i => s_at u (a + i)%nat) (b - a) (s_cap u - a).
Lemma sub_ok : forall u a b, (a <= b <= s_len u)%nat -> subslice u a b = Ret (sub u a b).
Proof. intros. rewrite subslice_ok by assumption. reflexivity. Qed.
Lemma sub_bytes : forall u a b, all_bytes u -> all_bytes (sub u a b).
Proof. intros. apply shifted_bytes. assumption. Qed.
Lemma sub_shows : forall u a b c l, shows u (a + c) l -> shows (sub u a b) c l.
Proof. intros u a b c l H. unfold shows, sub in *. rewrite bytes_of_shift. exact H. Qed.
Lemma sub_len : forall u a b, s_len (sub u a b) = (b - a)%nat. Proof. reflexivity. Qed.
Lemma sub_cap : forall u a b, s_cap (sub u a b) = (s_cap u - a)%nat. Proof. reflexivity. Qed.

Lemma shows_list : forall u l, shows u 0 l -> s_len u = length l -> slice_list u = l.
Proof. intros u l S L. unfold slice_list. rewrite L. exact S. Qed.

Lemma bytes_eqb_eq : forall a b, bytes_eqb a b = true <-> a = b.
Proof.
  induction a as [|x a IH]; intros [|y b]; cbn [bytes_eqb]; split; intros H; try reflexivity; try discriminate.
  - apply andb_prop in H. destruct H as [H1 H2]. apply Z.eqb_eq in H1. apply IH in H2. subst. reflexivity.
  - injection H as -> ->. rewrite Z.eqb_refl. cbn [andb]. apply IH. reflexivity.
Qed.
Lemma bytes_eqb_neq : forall a b, a <> b -> bytes_eqb a b = false.
Proof. intros a b H. destruct (bytes_eqb a b) eqn:E; [|reflexivity]. apply bytes_eqb_eq in E. contradiction. Qed.

(** ** Reading fields *)
Lemma price_read : forall m p u v, all_bytes u -> s_len u = 9%nat -> (9 <= s_cap u)%nat ->
  shows u 0 (price_text p v) -> price_ok p v -> to_i64 m (price_cv p) u = Ret v.
Proof.
  intros m p u v A L C S H. unfold price_text, field_text in S. cbn [app] in S.
  assert (S0 : s_at u 0 = sign_char v).
  { unfold shows in S. cbn [length] in S. unfold bytes_of in S. cbn [seq map] in S. injection S as E _. exact E. }
  assert (S1 : shows u 1 (written (integer_columns p) (point_columns p) (Z.abs v))).
  { change (sign_char v :: written (integer_columns p) (point_columns p) (Z.abs v))
      with ([sign_char v] ++ written (integer_columns p) (point_columns p) (Z.abs v)) in S.
    apply shows_app in S. apply S. }
  unfold price_ok in H.
  assert (U : to_u64 m (price_cv p) u = Ret (Z.abs v)).
  { rewrite to_u64_ok; try assumption.
    - cbn [price_cv cv_start cv_length cv_point]. f_equal.
      replace 8%nat with (integer_columns p + point_columns p)%nat by (destruct p; reflexivity).
      apply written_undotted; [exact S1|]. split; [lia | exact H].
    - destruct p; unfold cv_made; cbn; repeat split; lia.
    - destruct p; reflexivity.
    - cbn. lia. }
  unfold to_i64. cbn [price_cv cv_cfg price_cfg is_signed]. unfold index.
  rewrite L. cbn [Nat.ltb Nat.leb obind]. fold (price_cfg p). fold (price_cv p). rewrite U. cbn [obind]. rewrite S0.
  assert (B : Z.abs v < 10 ^ 8).
  { eapply Z.lt_le_trans; [exact H|]. destruct p; vm_compute; discriminate. }
  change (10 ^ 8) with 100000000 in B.
  unfold sign_char. destruct (Z.ltb_spec v 0).
  - change (45 =? 48) with false. cbv iota. rewrite as_i64_neg; [f_equal; lia|].
    change (2 ^ 63) with 9223372036854775808. lia.
  - change (48 =? 48) with true. cbv iota. rewrite as_i64_small; [f_equal; lia|].
    change (2 ^ 63) with 9223372036854775808. lia.
Qed.

Lemma digits_read : forall m cv u n v, cv_length cv = n -> all_bytes u -> (1 <= n <= 16)%nat -> (16 <= s_cap u)%nat ->
  shows u 0 (digit_chars n v) -> 0 <= v < 10 ^ Z.of_nat n -> to_u64_unchecked m cv u = Ret v.
Proof.
  intros m cv u n v E A N C S H. unfold to_u64_unchecked. rewrite E, parse_under16_ok by assumption. cbn [obind].
  unfold shows in S. rewrite digit_chars_length in S. rewrite S, dec_digit_chars by exact H.
  rewrite Z.mod_small; [reflexivity|].
  assert (10 ^ Z.of_nat n <= 10 ^ 16) by (apply Z.pow_le_mono_r; lia).
  assert (10 ^ 16 < two64) by reflexivity. lia.
Qed.

(** The first [k] of [n] digits. *)
Lemma digit_chars_split : forall k n v,
  digit_chars (n + k) v = digit_chars n (v / 10 ^ Z.of_nat k) ++ digit_chars k v.
Proof.
  induction k as [|k IH]; intros n v.
  - rewrite Nat.add_0_r. cbn [digit_chars]. rewrite app_nil_r. change (10 ^ Z.of_nat 0) with 1.
    rewrite Z.div_1_r. reflexivity.
  - rewrite Nat.add_succ_r. cbn [digit_chars]. rewrite IH, app_assoc. f_equal. f_equal. f_equal.
    rewrite Z.div_div by lia. f_equal. rewrite Nat2Z.inj_succ, Z.pow_succ_r by lia. reflexivity.
Qed.

Lemma digits_read_prefix : forall m cv u n k v, cv_length cv = n -> all_bytes u -> (1 <= n <= 16)%nat -> (16 <= s_cap u)%nat ->
  shows u 0 (digit_chars (n + k) v) -> 0 <= v < 10 ^ Z.of_nat (n + k) ->
  to_u64_unchecked m cv u = Ret (v / 10 ^ Z.of_nat k).
Proof.
  intros m cv u n k v E A N C S H. rewrite digit_chars_split in S. apply shows_app in S. destruct S as [S _].
  apply digits_read with (n := n); try assumption.
  assert (0 < 10 ^ Z.of_nat k) by (apply Z.pow_pos_nonneg; lia).
  rewrite Nat2Z.inj_add, Z.pow_add_r in H by lia.
  split; [apply Z.div_pos; lia | apply Z.div_lt_upper_bound; lia].
Qed.

Lemma digits_read_i64 : forall m cv u n k v, cv_length cv = n -> all_bytes u -> (1 <= n <= 16)%nat -> (16 <= s_cap u)%nat ->
  shows u 0 (digit_chars (n + k) v) -> 0 <= v < 10 ^ Z.of_nat (n + k) ->
  to_nonnegative_i64_unchecked m cv u = Ret (v / 10 ^ Z.of_nat k).
Proof.
  intros m cv u n k v E A N C S H. unfold to_nonnegative_i64_unchecked.
  rewrite (digits_read_prefix m cv u n k v) by assumption. cbn [obind].
  rewrite as_i64_small; [reflexivity|].
  assert (0 < 10 ^ Z.of_nat k) by (apply Z.pow_pos_nonneg; lia).
  rewrite Nat2Z.inj_add, Z.pow_add_r in H by lia.
  assert (10 ^ Z.of_nat n <= 10 ^ 16) by (apply Z.pow_le_mono_r; lia).
  change (10 ^ 16) with 10000000000000000 in *. change (2 ^ 63) with 9223372036854775808.
  assert (v / 10 ^ Z.of_nat k < 10 ^ Z.of_nat n) by (apply Z.div_lt_upper_bound; lia).
  split; [apply Z.div_pos; lia | lia].
Qed.

Lemma count_read : forall m u v, all_bytes u -> (8 <= s_cap u)%nat ->
  shows u 0 (digit_chars 5 v) -> 0 <= v < 10 ^ 5 -> to_u32_unchecked m cnt_cv u = Ret v.
Proof.
  intros m u v A C S H. unfold to_u32_unchecked. cbn [cnt_cv plain_cv cv_length].
  rewrite parse_under8_ok by (try assumption; lia). cbn [obind].
  unfold shows in S. rewrite digit_chars_length in S. rewrite S, dec_digit_chars by exact H.
  change (10 ^ 5) with 100000 in H. rewrite Z.mod_small; [reflexivity|]. change (2 ^ 32) with 4294967296. lia.
Qed.

(** On arbitrary bytes the readers still return. *)
Lemma price_total : forall m p u, all_bytes u -> s_len u = 9%nat -> (9 <= s_cap u)%nat ->
  exists v, to_i64 m (price_cv p) u = Ret v.
Proof.
  intros m p u A L C. unfold to_i64. cbn [price_cv cv_cfg price_cfg is_signed]. unfold index. rewrite L.
  cbn [Nat.ltb Nat.leb obind]. fold (price_cfg p). fold (price_cv p). rewrite to_u64_ok; try assumption.
  - cbn [obind]. eexists. reflexivity.
  - destruct p; unfold cv_made; cbn; repeat split; lia.
  - destruct p; reflexivity.
  - cbn. lia.
Qed.
Lemma digits_total : forall m cv u, (1 <= cv_length cv <= 16)%nat -> all_bytes u -> (16 <= s_cap u)%nat ->
  exists v, to_u64_unchecked m cv u = Ret v.
Proof.
  intros m cv u N A C. unfold to_u64_unchecked. rewrite parse_under16_ok by assumption. eexists. reflexivity.
Qed.
Lemma digits_i64_total : forall m cv u, (1 <= cv_length cv <= 16)%nat -> all_bytes u -> (16 <= s_cap u)%nat ->
  exists v, to_nonnegative_i64_unchecked m cv u = Ret v.
Proof.
  intros m cv u N A C. unfold to_nonnegative_i64_unchecked.
  destruct (digits_total m cv u N A C) as [v ->]. eexists. reflexivity.
Qed.
Lemma count_total : forall m u, all_bytes u -> (8 <= s_cap u)%nat -> exists v, to_u32_unchecked m cnt_cv u = Ret v.
Proof.
  intros m u A C. unfold to_u32_unchecked. cbn [cnt_cv plain_cv cv_length].
  rewrite parse_under8_ok by (try assumption; lia). eexists. reflexivity.
Qed.

(** ** The clock *)
Definition clock_value (u : slice) : Z :=
  dec (bytes_of u 6 6) * 1000 + (dec (bytes_of u 0 2) * 3600 + dec (bytes_of u 2 2) * 60 + dec (bytes_of u 4 2)) * second_nanos.

(** Dates and stamps the generator can hold without leaving u64 (any date
    before the year 2260). *)
Definition gen_ok (dg : date_gen) : Prop :=
  0 <= dg_date dg /\ 0 <= dg_prev dg /\ dg_date dg + dg_prev dg + 30 * day_nanos < two64.

Lemma clock_any : forall m u dg, all_bytes u -> s_len u = 12%nat -> (14 <= s_cap u)%nat -> gen_ok dg ->
  let local := dg_date dg + clock_value u + krx_offset in
  exists k, 0 <= k /\
    parse_hhmmssuuuuuu m krx_offset u dg
    = Ret (local + k * day_nanos, DateGen (dg_date dg + k * day_nanos) (local + k * day_nanos)) /\
    dg_prev dg < local + k * day_nanos + 15 * hour_nanos /\
    (k = 0 \/ local + (k - 1) * day_nanos + 15 * hour_nanos <= dg_prev dg).
Proof.
  intros m u dg A L C [D [P B]] local.
  assert (Bd : forall a n, 0 <= dec (bytes_of u a n) /\ 3 * dec (bytes_of u a n) <= 5 * (10 ^ Z.of_nat n - 1)).
  { intros a n. pose proof (dec_bound (bytes_of u a n) (bytes_of_bytes u a n A)) as H.
    rewrite bytes_of_length in H. exact H. }
  pose proof (Bd 0%nat 2%nat) as B1. pose proof (Bd 2%nat 2%nat) as B2. pose proof (Bd 4%nat 2%nat) as B3.
  pose proof (Bd 6%nat 6%nat) as B4. clear Bd. change (10 ^ Z.of_nat 2) with 100 in *.
  change (10 ^ Z.of_nat 6) with 1000000 in *.
  unfold parse_hhmmssuuuuuu.
  rewrite subslice_ok by lia. cbn [obind].
  rewrite parse_under8_ok by (try apply shifted_bytes; try exact A; cbn [s_cap]; lia). cbn [obind].
  rewrite bytes_of_shift. cbn [Nat.add].
  rewrite umul_ok by (unfold two64; lia). cbn [obind].
  rewrite subslice_ok by lia. cbn [obind].
  rewrite hhmmss_ok by (try apply shifted_bytes; try exact A; cbn [s_cap]; lia). cbn [obind].
  rewrite !bytes_of_shift. cbn [Nat.add].
  unfold local, clock_value, krx_offset in *. unfold day_nanos, hour_nanos, second_nanos in *.
  rewrite uadd_ok by (unfold two64 in *; lia). cbn [obind].
  rewrite uadd_ok by (unfold two64 in *; lia). cbn [obind].
  rewrite uadd_ok by (unfold two64 in *; lia). cbn [obind].
  set (x0 := dec (bytes_of u 0 2)) in *. set (x2 := dec (bytes_of u 2 2)) in *.
  set (x4 := dec (bytes_of u 4 2)) in *. set (x6 := dec (bytes_of u 6 6)) in *.
  set (cur := x6 * 1000 + (x0 * 3600 + x2 * 60 + x4) * 1000000000 + 9 * (3600 * 1000000000) + dg_date dg).
  replace (dg_date dg + (x6 * 1000 + (x0 * 3600 + x2 * 60 + x4) * 1000000000) + 9 * (3600 * 1000000000)) with cur by (unfold cur; ring).
  assert (Cb : dg_date dg <= cur < dg_date dg + 8 * 24 * (3600 * 1000000000)) by (unfold cur; lia).
  destruct (rollover_ok m rollover_fuel (dg_prev dg) (dg_date dg) cur) as [k [K0 [K1 [K2 K3]]]];
    [lia | lia | lia | | | |].
  - right. unfold rollover_fuel, day_nanos, hour_nanos, second_nanos. rewrite Z2Nat.id by lia. unfold two64 in *. lia.
  - unfold day_nanos, hour_nanos, second_nanos. lia.
  - unfold day_nanos, hour_nanos, second_nanos. lia.
  - unfold fifteen_hours, day_nanos, hour_nanos, second_nanos in *.
    exists k. split; [exact K0|]. rewrite K1. cbn [obind]. repeat split; [exact K2 | exact K3].
Qed.

Lemma clock_read : forall u h mi s us, shows u 0 (clock_text h mi s us) -> clock_ok h mi s us ->
  clock_value u = clock_nanos h mi s us.
Proof.
  intros u h mi s us Sh [H1 [H2 [H3 H4]]]. unfold clock_text in Sh.
  repeat rewrite shows_app in Sh. rewrite !digit_chars_length in Sh.
  destruct Sh as [S1 [S2 [S3 S4]]]. unfold shows in S1, S2, S3, S4. rewrite !digit_chars_length in *.
  cbn [Nat.add] in *. unfold clock_value. rewrite S1, S2, S3, S4.
  rewrite !dec_digit_chars by (cbn; lia). unfold clock_nanos, second_nanos. ring.
Qed.

(** ** Levels *)
Lemma unroll_map : forall A B (f : nat -> outcome A) (g : B -> A) (rows : list B) a n,
  (a + n <= length rows)%nat ->
  (forall i r, (a <= i < a + n)%nat -> nth_error rows i = Some r -> f i = Ret (g r)) ->
  unroll f (seq a n) = Ret (map g (firstn n (skipn a rows))).
Proof.
  intros A B f g rows a n. revert a. induction n as [|n IH]; intros a L H; [reflexivity|].
  cbn [seq unroll].
  destruct (nth_error rows a) as [r|] eqn:E; [|apply nth_error_None in E; lia].
  rewrite (H a r) by (try lia; exact E). cbn [obind].
  rewrite IH; [| lia | intros i r' Hi; apply H; lia]. cbn [obind].
  assert (Sk : skipn a rows = r :: skipn (S a) rows).
  { clear -E. revert a E. induction rows as [|x rows IH]; intros [|a] E; cbn in E; try discriminate.
    - injection E as ->. reflexivity.
    - cbn [skipn]. apply IH. exact E. }
  rewrite Sk. reflexivity.
Qed.

Lemma unroll_total : forall A (f : nat -> outcome A) is,
  (forall i, In i is -> exists x, f i = Ret x) -> exists l, unroll f is = Ret l /\ length l = length is.
Proof.
  intros A f is. induction is as [|i is IH]; intros H; [exists []; split; reflexivity|].
  cbn [unroll]. destruct (H i (or_introl eq_refl)) as [x ->]. cbn [obind].
  destruct IH as [l [-> L]]; [intros j Hj; apply H; right; exact Hj|]. cbn [obind].
  exists (x :: l). split; [reflexivity|]. cbn [length]. lia.
Qed.

Lemma shows_rows : forall B (f : B -> list Z) w u rows a i r,
  (forall r, length (f r) = w) -> shows u a (concat (map f rows)) -> nth_error rows i = Some r ->
  shows u (a + i * w) (f r).
Proof.
  intros B f w u rows. induction rows as [|x rows IH]; intros a i r W S E; [destruct i; discriminate|].
  cbn [map concat] in S. apply shows_app in S. destruct S as [S1 S2]. rewrite W in S2.
  destruct i as [|i]; cbn [nth_error] in E.
  - injection E as ->. rewrite Nat.add_0_r. exact S1.
  - replace (a + S i * w)%nat with (a + w + i * w)%nat by lia. apply IH; assumption.
Qed.

Lemma price_text_length : forall p v, length (price_text p v) = 9%nat.
Proof.
  intros p v. unfold price_text, field_text, written.
  destruct p; cbn [integer_columns point_columns app length]; rewrite ?app_length, ?digit_chars_length;
    cbn [length]; rewrite ?digit_chars_length; reflexivity.
Qed.
Lemma row_text_length : forall p r, length (row_text p r) = 46%nat.
Proof. intros. unfold row_text. rewrite !app_length, !price_text_length, !digit_chars_length. reflexivity. Qed.
Lemma stock_row_text_length : forall lp r, length (stock_row_text lp r) = if lp then 70%nat else 46%nat.
Proof.
  intros lp r. unfold stock_row_text. destruct lp; rewrite !app_length, !digit_chars_length; reflexivity.
Qed.
Lemma concat_length : forall B (f : B -> list Z) w rows, (forall r, length (f r) = w) ->
  length (concat (map f rows)) = (length rows * w)%nat.
Proof.
  intros B f w rows W. induction rows as [|r rows IH]; [reflexivity|].
  cbn [map concat length]. rewrite app_length, W, IH. lia.
Qed.

(** A level in a payload that shows a row. *)
Lemma level_read : forall m p P start i r, all_bytes P ->
  (start + i * 46 + 60 <= s_cap P)%nat -> (start + i * 46 + 46 <= s_len P)%nat ->
  shows P (start + i * 46) (row_text p r) -> row_ok p r ->
  parse_level m (deriv_conv p) cnt_cv start 46 9 9 5 P i = Ret (ask_row r, bid_row r).
Proof.
  intros m p P start i r A C L S [R1 [R2 [R3 [R4 [R5 R6]]]]].
  unfold row_text in S. repeat rewrite shows_app in S.
  rewrite !price_text_length, !digit_chars_length in S. destruct S as [S1 [S2 [S3 [S4 [S5 S6]]]]].
  unfold parse_level. rewrite sub_ok by lia. cbn [obind].
  set (c := sub P (start + i * 46) (start + i * 46 + 46)).
  assert (Ac : all_bytes c) by (apply sub_bytes; exact A).
  assert (Lc : s_len c = 46%nat) by (unfold c; rewrite sub_len; lia).
  assert (Cc : (60 <= s_cap c)%nat) by (unfold c; rewrite sub_cap; lia).
  cbn [deriv_conv oc_price oc_quantity].
  assert (St : forall a l, shows P (start + i * 46 + a) l -> shows c a l) by (intros; apply sub_shows; assumption).
  rewrite (sub_ok c 0 9) by lia. cbn [obind].
  rewrite (price_read m p (sub c 0 9) (ask_price r))
    by (try apply sub_bytes; try apply sub_shows; try assumption; rewrite ?sub_len, ?sub_cap; try lia; apply St; rewrite Nat.add_0_r; exact S1).
  cbn [obind].
  rewrite (sub_ok c 9 (9 + 9)) by lia. cbn [obind].
  rewrite (price_read m p (sub c 9 (9 + 9)) (bid_price r))
    by (try apply sub_bytes; try apply sub_shows; try assumption; rewrite ?sub_len, ?sub_cap; try lia; apply St; exact S2).
  cbn [obind].
  rewrite (sub_ok c (9 + 9) (9 + 9 + 9)) by lia. cbn [obind].
  rewrite (digits_read m qty_cv (sub c (9 + 9) (9 + 9 + 9)) 9 (ask_volume r))
    by (try reflexivity; try apply sub_bytes; try apply sub_shows; try assumption; rewrite ?sub_len, ?sub_cap; try lia;
        apply St; replace (start + i * 46 + (9 + 9 + 0))%nat with (start + i * 46 + 9 + 9)%nat by lia; exact S3).
  cbn [obind].
  rewrite (sub_ok c (9 + 9 + 9) (9 + 9 + 9 + 9)) by lia. cbn [obind].
  rewrite (digits_read m qty_cv (sub c (9 + 9 + 9) (9 + 9 + 9 + 9)) 9 (bid_volume r))
    by (try reflexivity; try apply sub_bytes; try apply sub_shows; try assumption; rewrite ?sub_len, ?sub_cap; try lia;
        apply St; replace (start + i * 46 + (9 + 9 + 9 + 0))%nat with (start + i * 46 + 9 + 9 + 9)%nat by lia; exact S4).
  cbn [obind].
  rewrite (sub_ok c (9 + 9 + 9 + 9) (9 + 9 + 9 + 9 + 5)) by lia. cbn [obind].
  rewrite (count_read m (sub c (9 + 9 + 9 + 9) (9 + 9 + 9 + 9 + 5)) (ask_orders r))
    by (try apply sub_bytes; try apply sub_shows; try assumption; rewrite ?sub_len, ?sub_cap; try lia;
        apply St; replace (start + i * 46 + (9 + 9 + 9 + 9 + 0))%nat with (start + i * 46 + 9 + 9 + 9 + 9)%nat by lia; exact S5).
  cbn [obind].
  rewrite (sub_ok c (9 + 9 + 9 + 9 + 5) (9 + 9 + 9 + 9 + 5 + 5)) by lia. cbn [obind].
  rewrite (count_read m (sub c (9 + 9 + 9 + 9 + 5) (9 + 9 + 9 + 9 + 5 + 5)) (bid_orders r))
    by (try apply sub_bytes; try apply sub_shows; try assumption; rewrite ?sub_len, ?sub_cap; try lia;
        apply St; replace (start + i * 46 + (9 + 9 + 9 + 9 + 5 + 0))%nat with (start + i * 46 + 9 + 9 + 9 + 9 + 5)%nat by lia; exact S6).
  reflexivity.
Qed.

Lemma level_total : forall m p P start i, all_bytes P ->
  (start + i * 46 + 60 <= s_cap P)%nat -> (start + i * 46 + 46 <= s_len P)%nat ->
  exists x, parse_level m (deriv_conv p) cnt_cv start 46 9 9 5 P i = Ret x.
Proof.
  intros m p P start i A C L.
  unfold parse_level. rewrite sub_ok by lia. cbn [obind].
  set (c := sub P (start + i * 46) (start + i * 46 + 46)).
  assert (Ac : all_bytes c) by (apply sub_bytes; exact A).
  assert (Lc : s_len c = 46%nat) by (unfold c; rewrite sub_len; lia).
  assert (Cc : (60 <= s_cap c)%nat) by (unfold c; rewrite sub_cap; lia).
  cbn [deriv_conv oc_price oc_quantity].
  repeat (rewrite (sub_ok c) by lia; cbn [obind];
    match goal with
    | |- context [to_i64 m (price_cv p) ?u] =>
        destruct (price_total m p u) as [? ->]; [apply sub_bytes; exact Ac | rewrite sub_len; lia | rewrite sub_cap; lia |]
    | |- context [to_u64_unchecked m qty_cv ?u] =>
        destruct (digits_total m qty_cv u) as [? ->]; [cbn; lia | apply sub_bytes; exact Ac | rewrite sub_cap; lia |]
    | |- context [to_u32_unchecked m cnt_cv ?u] =>
        destruct (count_total m u) as [? ->]; [apply sub_bytes; exact Ac | rewrite sub_cap; lia |]
    end; cbn [obind]).
  eexists. reflexivity.
Qed.

Lemma stock_level_read : forall m (lp : bool) P start i r, all_bytes P ->
  let w := if lp then 70%nat else 46%nat in
  (start + i * w + w + 16 <= s_cap P)%nat -> (start + i * w + w <= s_len P)%nat ->
  shows P (start + i * w) (stock_row_text lp r) -> stock_row_ok r ->
  parse_stock_level m lp stock_conv start w 11 12 P i
  = Ret (stock_ask_row lp (fun v => v / 100) r, stock_bid_row lp (fun v => v / 100) r).
Proof.
  intros m lp P start i r A w C L S [R1 [R2 [R3 [R4 [R5 R6]]]]].
  unfold stock_row_text in S. repeat rewrite shows_app in S.
  rewrite !digit_chars_length in S. destruct S as [S1 [S2 [S3 [S4 S5]]]].
  unfold parse_stock_level. rewrite sub_ok by lia. cbn [obind].
  set (c := sub P (start + i * w) (start + i * w + w)).
  assert (Wb : (46 <= w)%nat) by (unfold w; destruct lp; lia).
  assert (Ac : all_bytes c) by (apply sub_bytes; exact A).
  assert (Lc : s_len c = w) by (unfold c; rewrite sub_len; lia).
  assert (Cc : (w + 16 <= s_cap c)%nat) by (unfold c; rewrite sub_cap; lia).
  cbn [stock_conv oc_price oc_quantity].
  assert (St : forall a l, shows P (start + i * w + a) l -> shows c a l) by (intros; apply sub_shows; assumption).
  rewrite (sub_ok c 0 11) by lia. cbn [obind].
  rewrite (digits_read_i64 m _ (sub c 0 11) 9 2 (s_ask_price r))
    by (try reflexivity; try apply sub_bytes; try apply sub_shows; try assumption; rewrite ?sub_len, ?sub_cap; try lia; apply St; rewrite Nat.add_0_r; exact S1).
  cbn [obind].
  rewrite (sub_ok c 11 (11 + 11)) by lia. cbn [obind].
  rewrite (digits_read_i64 m _ (sub c 11 (11 + 11)) 9 2 (s_bid_price r))
    by (try reflexivity; try apply sub_bytes; try apply sub_shows; try assumption; rewrite ?sub_len, ?sub_cap; try lia; apply St; exact S2).
  cbn [obind].
  rewrite (sub_ok c (11 + 11) (11 + 11 + 12)) by lia. cbn [obind].
  rewrite (digits_read m cum_cv (sub c (11 + 11) (11 + 11 + 12)) 12 (s_ask_volume r))
    by (try reflexivity; try apply sub_bytes; try apply sub_shows; try assumption; rewrite ?sub_len, ?sub_cap; try lia;
        apply St; replace (start + i * w + (11 + 11 + 0))%nat with (start + i * w + 11 + 11)%nat by lia; exact S3).
  cbn [obind].
  rewrite (sub_ok c (11 + 11 + 12) (11 + 11 + 12 + 12)) by lia. cbn [obind].
  rewrite (digits_read m cum_cv (sub c (11 + 11 + 12) (11 + 11 + 12 + 12)) 12 (s_bid_volume r))
    by (try reflexivity; try apply sub_bytes; try apply sub_shows; try assumption; rewrite ?sub_len, ?sub_cap; try lia;
        apply St; replace (start + i * w + (11 + 11 + 12 + 0))%nat with (start + i * w + 11 + 11 + 12)%nat by lia; exact S4).
  cbn [obind].
  destruct lp; [|reflexivity].
  assert (w = 70%nat) by reflexivity.
  apply shows_app in S5. rewrite digit_chars_length in S5. destruct S5 as [S5 S6].
  rewrite (sub_ok c (11 + 11 + 12 + 12) (11 + 11 + 12 + 12 + 12)) by lia. cbn [obind].
  rewrite (digits_read m cum_cv (sub c (11 + 11 + 12 + 12) (11 + 11 + 12 + 12 + 12)) 12 (s_ask_lp r))
    by (try reflexivity; try apply sub_bytes; try apply sub_shows; try assumption; rewrite ?sub_len, ?sub_cap; try lia;
        apply St; replace (start + i * w + (11 + 11 + 12 + 12 + 0))%nat with (start + i * w + 11 + 11 + 12 + 12)%nat by lia; exact S5).
  cbn [obind].
  rewrite (sub_ok c (11 + 11 + 12 + 12 + 12) (11 + 11 + 12 + 12 + 12 + 12)) by lia. cbn [obind].
  rewrite (digits_read m cum_cv (sub c (11 + 11 + 12 + 12 + 12) (11 + 11 + 12 + 12 + 12 + 12)) 12 (s_bid_lp r))
    by (try reflexivity; try apply sub_bytes; try apply sub_shows; try assumption; rewrite ?sub_len, ?sub_cap; try lia;
        apply St; replace (start + i * w + (11 + 11 + 12 + 12 + 12 + 0))%nat with (start + i * w + 11 + 11 + 12 + 12 + 12)%nat by lia; exact S6).
  reflexivity.
Qed.

Lemma stock_level_total : forall m (lp : bool) P start i, all_bytes P ->
  let w := if lp then 70%nat else 46%nat in
  (start + i * w + w + 16 <= s_cap P)%nat -> (start + i * w + w <= s_len P)%nat ->
  exists x, parse_stock_level m lp stock_conv start w 11 12 P i = Ret x.
Proof.
  intros m lp P start i A w C L.
  unfold parse_stock_level. rewrite sub_ok by lia. cbn [obind].
  set (c := sub P (start + i * w) (start + i * w + w)).
  assert (Wb : (46 <= w)%nat) by (unfold w; destruct lp; lia).
  assert (Ac : all_bytes c) by (apply sub_bytes; exact A).
  assert (Lc : s_len c = w) by (unfold c; rewrite sub_len; lia).
  assert (Cc : (w + 16 <= s_cap c)%nat) by (unfold c; rewrite sub_cap; lia).
  cbn [stock_conv oc_price oc_quantity].
  do 2 (rewrite (sub_ok c) by lia; cbn [obind];
    match goal with
    | |- context [to_nonnegative_i64_unchecked m ?cv ?u] =>
        destruct (digits_i64_total m cv u) as [? ->]; [cbn; lia | apply sub_bytes; exact Ac | rewrite sub_cap; lia |]
    end; cbn [obind]).
  do 2 (rewrite (sub_ok c) by lia; cbn [obind];
    match goal with
    | |- context [to_u64_unchecked m ?cv ?u] =>
        destruct (digits_total m cv u) as [? ->]; [cbn; lia | apply sub_bytes; exact Ac | rewrite sub_cap; lia |]
    end; cbn [obind]).
  destruct lp; [|eexists; reflexivity].
  assert (w = 70%nat) by reflexivity.
  do 2 (rewrite (sub_ok c) by lia; cbn [obind];
    match goal with
    | |- context [to_u64_unchecked m ?cv ?u] =>
        destruct (digits_total m cv u) as [? ->]; [cbn; lia | apply sub_bytes; exact Ac | rewrite sub_cap; lia |]
    end; cbn [obind]).
  eexists; reflexivity.
Qed.
