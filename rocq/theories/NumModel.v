(** NumModel.v -- trading-engine/src/utils/numeric_converter.rs.

    Byte slices.  The parsers read 8 or 16 bytes with [read_unaligned] from the
    start pointer of a slice, whatever the length of the slice, so a slice is
    modelled by the memory seen from its start pointer ([s_at i] is the byte at
    pointer + i, also beyond the end of the slice), its length, and the number
    [s_cap] of bytes from the start pointer to the end of the allocation the
    slice points into.  Indexing and sub-slicing are bounds-checked against the
    length.  A raw read that runs past the allocation is undefined behaviour;
    the model maps it to [Panic], so a theorem that concludes [Ret _] excludes
    it.  Inside the allocation but beyond the slice, the read sees arbitrary
    bytes ([s_at] is universally quantified there).

    [debug_assert!] fires in the [Checked] build only. *)
From Coq Require Import ZArith List Lia Bool.
From Verif Require Import Base.
Import ListNotations.
Open Scope Z_scope.

(** ** Machine words of [w] bits *)
Definition wadd (m : build) (w a b : Z) : outcome Z :=
  if a + b <? 2 ^ w then Ret (a + b)
  else match m with Checked => Panic | Wrapping => Ret ((a + b) mod 2 ^ w) end.
Definition wmul (m : build) (w a b : Z) : outcome Z :=
  if a * b <? 2 ^ w then Ret (a * b)
  else match m with Checked => Panic | Wrapping => Ret ((a * b) mod 2 ^ w) end.
(** [x << k]: an over-wide shift panics when checked and masks the amount otherwise. *)
Definition wshl (m : build) (w x k : Z) : outcome Z :=
  if k <? w then Ret ((x * 2 ^ k) mod 2 ^ w)
  else match m with Checked => Panic | Wrapping => Ret ((x * 2 ^ (k mod w)) mod 2 ^ w) end.
(** [!x] *)
Definition wnot (w x : Z) : Z := 2 ^ w - 1 - x.

(** ** Slices *)
Record slice := Slice { s_at : nat -> Z; s_len : nat; s_cap : nat }.

(** The slice [l] inside an allocation that goes on for [extra] bytes, with
    contents [rest]. *)
Definition slice_of (l : list Z) (rest : nat -> Z) (extra : nat) : slice :=
  Slice (fun i => match nth_error l i with Some b => b | None => rest (i - length l)%nat end)
        (length l) (length l + extra).

(** [&u[a..b]]; [Panic] when out of bounds. *)
Definition subslice (u : slice) (a b : nat) : outcome slice :=
  if (a <=? b)%nat && (b <=? s_len u)%nat
  then Ret (Slice (fun i => s_at u (a + i)%nat) (b - a) (s_cap u - a)) else Panic.

(** [u.split_at(k)] *)
Definition split_at (u : slice) (k : nat) : outcome (slice * slice) :=
  if (k <=? s_len u)%nat
  then Ret (Slice (s_at u) k (s_cap u), Slice (fun i => s_at u (k + i)%nat) (s_len u - k) (s_cap u - k)) else Panic.

(** [u[i]] *)
Definition index (u : slice) (i : nat) : outcome Z :=
  if (i <? s_len u)%nat then Ret (s_at u i) else Panic.

(** Little-endian value of a list of bytes. *)
Definition le (l : list Z) : Z := fold_right (fun b a => b + 256 * a) 0 l.

(** [read_unaligned(u.as_ptr() as *const uN)] on a little-endian machine, n bytes. *)
Definition read_le (n : nat) (u : slice) : outcome Z :=
  if (n <=? s_cap u)%nat then Ret (le (map (s_at u) (seq 0 n))) else Panic (* undefined behaviour *).

(** ** SWAR decoding *)

(** One masking step: [((chunk & lo) >> sh) + (chunk & hi) * f] *)
Definition swar_step (m : build) (w lo sh hi f chunk : Z) : outcome Z :=
  let lower := Z.shiftr (Z.land chunk lo) sh in
  let! upper := wmul m w (Z.land chunk hi) f in
  wadd m w lower upper.

(** numeric_converter.rs 113-129 *)
Definition u8_chunk_to_u64_decimal (m : build) (chunk : Z) : outcome Z :=
  let! c1 := swar_step m 64 0x0f000f000f000f00 8 0x000f000f000f000f 10 chunk in
  let! c2 := swar_step m 64 0x00ff000000ff0000 16 0x000000ff000000ff 100 c1 in
  swar_step m 64 0x0000ffff00000000 32 0x000000000000ffff 10000 c2.

(** numeric_converter.rs 132-150 *)
Definition u8_chunk_to_u128_decimal (m : build) (chunk : Z) : outcome Z :=
  let! c1 := swar_step m 128 0x0f000f000f000f000f000f000f000f00 8 0x000f000f000f000f000f000f000f000f 10 chunk in
  let! c2 := swar_step m 128 0x00ff000000ff000000ff000000ff0000 16 0x000000ff000000ff000000ff000000ff 100 c1 in
  let! c3 := swar_step m 128 0x0000ffff000000000000ffff00000000 32 0x000000000000ffff000000000000ffff 10000 c2 in
  swar_step m 128 0x00000000ffffffff0000000000000000 64 0x000000000000000000000000ffffffff 100000000 c3.

(** [debug_assert!(c)] *)
Definition debug_assert (m : build) (c : bool) : outcome unit :=
  match m with Checked => if c then Ret tt else Panic | Wrapping => Ret tt end.

(** numeric_converter.rs 263-271.  [length] is a usize: the amount
    [64 - length * 8] is computed on u64. *)
Definition parse_under8 (m : build) (u : slice) (length : nat) : outcome Z :=
  let! _ := debug_assert m (length <=? 8)%nat in
  let! c := read_le 8 u in
  let! k := umul m (Z.of_nat length) 8 in
  let! k := usub m 64 k in
  let! chunk := wshl m 64 c k in
  u8_chunk_to_u64_decimal m chunk.

(** numeric_converter.rs 274-282 *)
Definition parse_under16 (m : build) (u : slice) (length : nat) : outcome Z :=
  let! _ := debug_assert m (length <=? 16)%nat in
  let! c := read_le 16 u in
  let! k := umul m (Z.of_nat length) 8 in
  let! k := usub m 128 k in
  let! chunk := wshl m 128 c k in
  u8_chunk_to_u128_decimal m chunk.

(** [10u128.pow(e)] *)
Definition pow10_u128 (m : build) (e : nat) : outcome Z :=
  if 10 ^ Z.of_nat e <? 2 ^ 128 then Ret (10 ^ Z.of_nat e)
  else match m with Checked => Panic | Wrapping => Ret ((10 ^ Z.of_nat e) mod 2 ^ 128) end.

(** numeric_converter.rs 285-292.  [length - 16] is a usize subtraction; a
    length below 16 is rejected by the assertion in the checked build and is
    outside the domain of every caller otherwise (callers pass 16..=18), so it
    is [Panic] here: simplification. *)
Definition parse_under32 (m : build) (u : slice) (length : nat) : outcome Z :=
  let! _ := debug_assert m ((16 <=? length) && (length <=? 32))%nat in
  let! (upper, lower) := split_at u 16 in
  if (length <? 16)%nat then Panic else
  let! a := parse_under16 m upper 16 in
  let! p := pow10_u128 m (length - 16) in
  let! ap := wmul m 128 a p in
  let! b := parse_under16 m lower (length - 16) in
  wadd m 128 ap b.

(** The [_ =>] branch of 166-175 and 187-195: remove the byte of the decimal
    point from a chunk of [w] bits ([nb] = w / 8 bytes). *)
Definition drop_point (m : build) (w nb : Z) (chunk : Z) (point_length : nat) : outcome Z :=
  let! d := usub m (nb + 1) (Z.of_nat point_length) in
  let! d := umul m d 8 in
  let! point_mask := wshl m w (2 ^ w - 1) d in
  let decimal_mask := wnot w point_mask in
  let! moved := wshl m w (Z.land chunk (Z.shiftr decimal_mask 8)) 8 in
  wadd m w (Z.land chunk point_mask) moved.

(** numeric_converter.rs 153-177 *)
Definition parse_under8_fp (m : build) (u : slice) (length point_length : nat) : outcome Z :=
  let! _ := debug_assert m ((1 <=? length) && (length <=? 8))%nat in
  match point_length with
  | O => parse_under8 m u length
  | 1%nat =>
      if (length =? 0)%nat then Panic (* 0 - 1: out of range for the slice in both builds *)
      else let! v := subslice u 0 (length - 1) in parse_under8 m v (length - 1)
  | _ =>
      let! c := read_le 8 u in
      let! k := umul m (Z.of_nat length) 8 in
      let! k := usub m 64 k in
      let! chunk := wshl m 64 c k in
      let! chunk := drop_point m 64 8 chunk point_length in
      u8_chunk_to_u64_decimal m chunk
  end.

(** numeric_converter.rs 180-197; [as u64] keeps the low 64 bits. *)
Definition parse_under16_fp (m : build) (u : slice) (length point_length : nat) : outcome Z :=
  let! _ := debug_assert m ((1 <=? length) && (length <=? 16))%nat in
  match point_length with
  | O => let! r := parse_under16 m u length in Ret (r mod two64)
  | 1%nat =>
      if (length =? 0)%nat then Panic
      else let! v := subslice u 0 (length - 1) in
           let! r := parse_under16 m v (length - 1) in Ret (r mod two64)
  | _ =>
      let! c := read_le 16 u in
      let! k := umul m (Z.of_nat length) 8 in
      let! k := usub m 128 k in
      let! chunk := wshl m 128 c k in
      let! chunk := drop_point m 128 16 chunk point_length in
      let! r := u8_chunk_to_u128_decimal m chunk in Ret (r mod two64)
  end.

(** numeric_converter.rs 200-233.  Called with length 17 or 18 and
    point_length <= length only (324-370); outside of [point_length <= length],
    [16 <= length] the usize subtractions underflow: [Panic], simplification. *)
Definition parse_under32_fp (m : build) (u : slice) (length point_length : nat) : outcome Z :=
  let! _ := debug_assert m ((16 <=? length) && (length <=? 32))%nat in
  match point_length with
  | O => let! r := parse_under32 m u length in Ret (r mod two64)
  | 1%nat =>
      if (length =? 0)%nat then Panic
      else let! v := subslice u 0 (length - 1) in
           let! r := parse_under32 m v (length - 1) in Ret (r mod two64)
  | _ =>
      if (length <? point_length)%nat || (length <? 16)%nat then Panic else
      let point_location := (length - point_length)%nat in
      let left_point_length := if (16 <? point_location)%nat then O else (16 - point_location)%nat in
      let right_point_length := if (point_location <? 16)%nat then O else point_length in
      let! (upper, lower) := split_at u 16 in
      let! upper_val := parse_under16_fp m upper 16 left_point_length in
      let! lower_val := parse_under16_fp m lower (length - 16) right_point_length in
      let! power_val := pow10_u128 m (if (point_location <=? 15)%nat then length - 16 else length - 17)%nat in
      let! x := umul m upper_val (power_val mod two64) in
      uadd m x lower_val
  end.

(** numeric_converter.rs 235-240 (u16 arithmetic) *)
Definition parse_2digits (m : build) (u : slice) : outcome Z :=
  let! c := read_le 2 u in
  swar_step m 16 0x0f00 8 0x000f 10 c.

(** numeric_converter.rs 243-260 (u32 arithmetic) *)
Definition parse_3digits (m : build) (u : slice) : outcome Z :=
  let! c := read_le 4 u in
  let! chunk := wshl m 32 c 8 in
  let! c := swar_step m 32 0x0f000f00 8 0x000f000f 10 chunk in
  swar_step m 32 0x00ff0000 16 0x000000ff 100 c.

(** types/timestamp.rs 16-19 *)
Definition second_nanos : Z := 1000000000.
Definition hour_nanos : Z := 3600 * second_nanos.
Definition day_nanos : Z := 24 * hour_nanos.
Definition fifteen_hours : Z := 15 * hour_nanos.

(** numeric_converter.rs 83-110 *)
Definition parse_hhmmss_to_nanos (m : build) (u : slice) : outcome Z :=
  let! c := read_le 8 u in
  let! s0 := wshl m 64 c 16 in
  let! s1 := swar_step m 64 0x0f000f000f000f00 8 0x000f000f000f000f 10 s0 in
  let! s2 := swar_step m 64 0x00ff000000ff0000 16 0x000000ff000000ff 60 s1 in
  let! s3 := swar_step m 64 0x0000ffff00000000 32 0x000000000000ffff 3600 s2 in
  umul m s3 second_nanos.

(** ** IntegerConverter *)

(** numeric_converter.rs 30-38; [float_normalizer] is used by the float
    functions only (454-487), not modelled. *)
Record num_cfg := NumCfg {
  digit_length : nat; decimal_point_length : nat; is_signed : bool;
  unused_length : nat; total_length : nat; drop_decimal_point : bool }.

Definition bool_nat (b : bool) : nat := if b then 1%nat else 0%nat.

(** numeric_converter.rs 40-66; the sums of lengths are kept exact
    (simplification: below 2^64). *)
Definition check_validity (c : num_cfg) : bool :=
  (digit_length c + decimal_point_length c + unused_length c + bool_nat (is_signed c) =? total_length c)%nat.

(** Which of the three parsers was stored. *)
Inductive parser_kind := Under8 | Under16 | Under32.
Definition run_parser (m : build) (k : parser_kind) : slice -> nat -> nat -> outcome Z :=
  match k with Under8 => parse_under8_fp m | Under16 => parse_under16_fp m | Under32 => parse_under32_fp m end.

(** numeric_converter.rs 294-305 *)
Record converter := Converter {
  cv_cfg : num_cfg; cv_start : nat; cv_end : nat; cv_point : nat; cv_length : nat; cv_parser : parser_kind }.

(** numeric_converter.rs 344-390 (little-endian target). The subtractions
    cannot underflow once check_validity has passed. *)
Definition converter_new (c : num_cfg) : rresult converter :=
  if negb (check_validity c) then RErr
  else
    let size0 := (total_length c - unused_length c - bool_nat (is_signed c))%nat in
    let start := (bool_nat (is_signed c) + unused_length c)%nat in
    let '(size, point) :=
      if drop_decimal_point c then ((size0 - decimal_point_length c)%nat, 0%nat)
      else (size0, decimal_point_length c) in
    let mk k := ROk (Converter c start size point size k) in
    if (size <=? 8)%nat then mk Under8
    else if (size <=? 16)%nat then mk Under16
    else if (size <=? 18)%nat then mk Under32
    else RErr.

(** numeric_converter.rs 393-399 *)
Definition to_u64 (m : build) (cv : converter) (value : slice) : outcome Z :=
  let! u := subslice value (cv_start cv) (cv_end cv) in
  run_parser m (cv_parser cv) u (cv_length cv) (cv_point cv).

(** [x as i64] of a u64 *)
Definition as_i64 (x : Z) : Z := if x <? 2 ^ 63 then x else x - two64.

(** numeric_converter.rs 430-439: [(!x).wrapping_add(1) as i64] *)
Definition to_i64 (m : build) (cv : converter) (value : slice) : outcome Z :=
  if is_signed (cv_cfg cv) then
    let! b := index value 0 in
    let! x := to_u64 m cv value in
    Ret (if b =? 48 then as_i64 x else as_i64 ((wnot 64 x + 1) mod two64))
  else let! x := to_u64 m cv value in Ret (as_i64 x).

(** numeric_converter.rs 411-413 *)
Definition to_u64_unchecked (m : build) (cv : converter) (value : slice) : outcome Z :=
  let! r := parse_under16 m value (cv_length cv) in Ret (r mod two64).
(** numeric_converter.rs 405-407 *)
Definition to_nonnegative_i64_unchecked (m : build) (cv : converter) (value : slice) : outcome Z :=
  let! x := to_u64_unchecked m cv value in Ret (as_i64 x).
(** numeric_converter.rs 418-420 *)
Definition to_long_u64_unchecked (m : build) (cv : converter) (value : slice) : outcome Z :=
  let! r := parse_under32 m value (cv_length cv) in Ret (r mod two64).
(** numeric_converter.rs 425-427 *)
Definition to_u32_unchecked (m : build) (cv : converter) (value : slice) : outcome Z :=
  let! r := parse_under8 m value (cv_length cv) in Ret (r mod 2 ^ 32).

(** ** TimeStampConverter and DateUnixNanoGenerator *)

(** types/timestamp.rs 34-38 ([update_stamp], wall-clock bookkeeping, is not modelled) *)
Record date_gen := DateGen { dg_date : Z; dg_prev : Z }.

(** numeric_converter.rs 573-585: the [while] loop, on fuel; every iteration
    adds one day to both the date and the timestamp. *)
Fixpoint rollover (m : build) (fuel : nat) (prev date cur : Z) : outcome (Z * Z) :=
  let! lim := uadd m fifteen_hours cur in
  if lim <=? prev then
    match fuel with
    | O => Diverge
    | S f => let! date' := uadd m date day_nanos in
             let! cur' := uadd m cur day_nanos in rollover m f prev date' cur'
    end
  else Ret (date, cur).

(** numeric_converter.rs 557-589.  Result: timestamp, generator.  The fuel
    [2^64 / day] is more than any chain of days fits into a u64. *)
Definition rollover_fuel : nat := Z.to_nat 213504.
Definition parse_hhmmssuuuuuu (m : build) (offset : Z) (val : slice) (dg : date_gen) : outcome (Z * date_gen) :=
  let! us := subslice val 6 12 in
  let! micros := parse_under8 m us 6 in
  let! t := umul m micros 1000 in
  let! hms := subslice val 0 6 in
  let! h := parse_hhmmss_to_nanos m hms in
  let! t := uadd m t h in
  let! t := uadd m t offset in
  let! t := uadd m t (dg_date dg) in
  let! (date, cur) := rollover m rollover_fuel (dg_prev dg) (dg_date dg) t in
  Ret (cur, DateGen date cur).
