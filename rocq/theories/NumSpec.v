(** NumSpec.v -- what a fixed-width number field of an exchange message means.
    Independent of the parsers: it says how a number is written. *)
From Coq Require Import ZArith List Bool.
Import ListNotations.
Open Scope Z_scope.

(** The [n] last decimal digits of [v], most significant first, in ASCII. *)
Fixpoint digit_chars (n : nat) (v : Z) : list Z :=
  match n with
  | O => []
  | S k => digit_chars k (v / 10) ++ [48 + v mod 10]
  end.

(** A number written with [i] integer digits and, when [p > 0], a decimal
    point followed by [p - 1] decimals; [v] counts units of the last decimal
    place ("123.45" is v = 12345 with i = 3, p = 3). *)
Definition written (i p : nat) (v : Z) : list Z :=
  match p with
  | O => digit_chars i v
  | S d => digit_chars i (v / 10 ^ Z.of_nat d) ++ [46] ++ digit_chars d (v mod 10 ^ Z.of_nat d)
  end.

(** Largest number of units + 1 such a field can hold. *)
Definition capacity (i p : nat) : Z := 10 ^ Z.of_nat (i + (p - 1)).

(** Sign column: '0' for a number that is not negative, '-' for a negative one. *)
Definition sign_char (v : Z) : Z := if v <? 0 then 45 else 48.

(** A whole field: optional sign column, [pad] (unused columns, any bytes), number. *)
Definition field_text (signed : bool) (pad : list Z) (i p : nat) (v : Z) : list Z :=
  (if signed then [sign_char v] else []) ++ pad ++ written i p (Z.abs v).

(** Microseconds since midnight, as written by the exchange: HHMMSSuuuuuu. *)
Definition clock_text (h mi s us : Z) : list Z :=
  digit_chars 2 h ++ digit_chars 2 mi ++ digit_chars 2 s ++ digit_chars 6 us.
Definition clock_ok (h mi s us : Z) : Prop :=
  0 <= h < 24 /\ 0 <= mi < 60 /\ 0 <= s < 60 /\ 0 <= us < 1000000.
Definition clock_nanos (h mi s us : Z) : Z :=
  ((h * 60 + mi) * 60 + s) * 1000000000 + us * 1000.
