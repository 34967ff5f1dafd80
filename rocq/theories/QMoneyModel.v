(** QMoneyModel.v -- currencies, currency pairs and numbers with commas.

    A [&str] is the list of its bytes, which are valid UTF-8. *)
From Coq Require Import ZArith List Bool Ascii.
From Verif Require Import Base KrxModel.
Import ListNotations.
Open Scope Z_scope.

(** currency.rs 5-57: Currency *)
Inductive currency : Type :=
| Ccy_NIL | Ccy_KRW | Ccy_USD | Ccy_EUR | Ccy_JPY | Ccy_CNY | Ccy_CNH | Ccy_GBP | Ccy_AUD | Ccy_CAD | Ccy_CHF | Ccy_NZD
| Ccy_SEK | Ccy_NOK | Ccy_MXN | Ccy_ZAR | Ccy_BRL | Ccy_INR | Ccy_RUB | Ccy_TRY | Ccy_HKD | Ccy_SGD | Ccy_TWD | Ccy_THB
| Ccy_IDR | Ccy_MYR | Ccy_PHP | Ccy_VND | Ccy_PKR | Ccy_LKR | Ccy_BDT | Ccy_NPR | Ccy_KZT | Ccy_UZS | Ccy_KGS | Ccy_TJS
| Ccy_MNT | Ccy_AED | Ccy_SAR | Ccy_QAR | Ccy_OMR | Ccy_KWD | Ccy_BHD | Ccy_JOD | Ccy_ILS | Ccy_EGP | Ccy_ZMW.
(** the derived [PartialEq] *)
Definition ccy_index (c : currency) : Z :=
  match c with
  | Ccy_NIL => 0
  | Ccy_KRW => 1
  | Ccy_USD => 2
  | Ccy_EUR => 3
  | Ccy_JPY => 4
  | Ccy_CNY => 5
  | Ccy_CNH => 6
  | Ccy_GBP => 7
  | Ccy_AUD => 8
  | Ccy_CAD => 9
  | Ccy_CHF => 10
  | Ccy_NZD => 11
  | Ccy_SEK => 12
  | Ccy_NOK => 13
  | Ccy_MXN => 14
  | Ccy_ZAR => 15
  | Ccy_BRL => 16
  | Ccy_INR => 17
  | Ccy_RUB => 18
  | Ccy_TRY => 19
  | Ccy_HKD => 20
  | Ccy_SGD => 21
  | Ccy_TWD => 22
  | Ccy_THB => 23
  | Ccy_IDR => 24
  | Ccy_MYR => 25
  | Ccy_PHP => 26
  | Ccy_VND => 27
  | Ccy_PKR => 28
  | Ccy_LKR => 29
  | Ccy_BDT => 30
  | Ccy_NPR => 31
  | Ccy_KZT => 32
  | Ccy_UZS => 33
  | Ccy_KGS => 34
  | Ccy_TJS => 35
  | Ccy_MNT => 36
  | Ccy_AED => 37
  | Ccy_SAR => 38
  | Ccy_QAR => 39
  | Ccy_OMR => 40
  | Ccy_KWD => 41
  | Ccy_BHD => 42
  | Ccy_JOD => 43
  | Ccy_ILS => 44
  | Ccy_EGP => 45
  | Ccy_ZMW => 46
  end.
Definition ccy_eqb (a b : currency) : bool := ccy_index a =? ccy_index b.
(** currency.rs 122-174: as_str *)
Definition ccy_str (c : currency) : list ascii :=
  match c with
  | Ccy_NIL => ["N"; "I"; "L"]%char
  | Ccy_KRW => ["K"; "R"; "W"]%char
  | Ccy_USD => ["U"; "S"; "D"]%char
  | Ccy_EUR => ["E"; "U"; "R"]%char
  | Ccy_JPY => ["J"; "P"; "Y"]%char
  | Ccy_CNY => ["C"; "N"; "Y"]%char
  | Ccy_CNH => ["C"; "N"; "H"]%char
  | Ccy_GBP => ["G"; "B"; "P"]%char
  | Ccy_AUD => ["A"; "U"; "D"]%char
  | Ccy_CAD => ["C"; "A"; "D"]%char
  | Ccy_CHF => ["C"; "H"; "F"]%char
  | Ccy_NZD => ["N"; "Z"; "D"]%char
  | Ccy_SEK => ["S"; "E"; "K"]%char
  | Ccy_NOK => ["N"; "O"; "K"]%char
  | Ccy_MXN => ["M"; "X"; "N"]%char
  | Ccy_ZAR => ["Z"; "A"; "R"]%char
  | Ccy_BRL => ["B"; "R"; "L"]%char
  | Ccy_INR => ["I"; "N"; "R"]%char
  | Ccy_RUB => ["R"; "U"; "B"]%char
  | Ccy_TRY => ["T"; "R"; "Y"]%char
  | Ccy_HKD => ["H"; "K"; "D"]%char
  | Ccy_SGD => ["S"; "G"; "D"]%char
  | Ccy_TWD => ["T"; "W"; "D"]%char
  | Ccy_THB => ["T"; "H"; "B"]%char
  | Ccy_IDR => ["I"; "D"; "R"]%char
  | Ccy_MYR => ["M"; "Y"; "R"]%char
  | Ccy_PHP => ["P"; "H"; "P"]%char
  | Ccy_VND => ["V"; "N"; "D"]%char
  | Ccy_PKR => ["P"; "K"; "R"]%char
  | Ccy_LKR => ["L"; "K"; "R"]%char
  | Ccy_BDT => ["B"; "D"; "T"]%char
  | Ccy_NPR => ["N"; "P"; "R"]%char
  | Ccy_KZT => ["K"; "Z"; "T"]%char
  | Ccy_UZS => ["U"; "Z"; "S"]%char
  | Ccy_KGS => ["K"; "G"; "S"]%char
  | Ccy_TJS => ["T"; "J"; "S"]%char
  | Ccy_MNT => ["M"; "N"; "T"]%char
  | Ccy_AED => ["A"; "E"; "D"]%char
  | Ccy_SAR => ["S"; "A"; "R"]%char
  | Ccy_QAR => ["Q"; "A"; "R"]%char
  | Ccy_OMR => ["O"; "M"; "R"]%char
  | Ccy_KWD => ["K"; "W"; "D"]%char
  | Ccy_BHD => ["B"; "H"; "D"]%char
  | Ccy_JOD => ["J"; "O"; "D"]%char
  | Ccy_ILS => ["I"; "L"; "S"]%char
  | Ccy_EGP => ["E"; "G"; "P"]%char
  | Ccy_ZMW => ["Z"; "M"; "W"]%char
  end.
(** [==] on [&str] *)
Fixpoint bytes_eqb (a b : list ascii) : bool :=
  match a, b with [], [] => true | x :: a', y :: b' => Ascii.eqb x y && bytes_eqb a' b' | _, _ => false end.
(** the arms of a [match] on a string: the first that fits, else the last *)
Fixpoint first_arm (s : list ascii) (arms : list (list ascii * currency)) (otherwise : currency) : currency :=
  match arms with [] => otherwise | (t, c) :: arms' => if bytes_eqb s t then c else first_arm s arms' otherwise end.
(** currency.rs 67-120: From<&str> for Currency *)
Definition ccy_arms : list (list ascii * currency) := [
    (["N"; "I"; "L"]%char, Ccy_NIL);
    (["K"; "R"; "W"]%char, Ccy_KRW);
    (["U"; "S"; "D"]%char, Ccy_USD);
    (["E"; "U"; "R"]%char, Ccy_EUR);
    (["J"; "P"; "Y"]%char, Ccy_JPY);
    (["C"; "N"; "Y"]%char, Ccy_CNY);
    (["C"; "N"; "H"]%char, Ccy_CNH);
    (["G"; "B"; "P"]%char, Ccy_GBP);
    (["A"; "U"; "D"]%char, Ccy_AUD);
    (["C"; "A"; "D"]%char, Ccy_CAD);
    (["C"; "H"; "F"]%char, Ccy_CHF);
    (["N"; "Z"; "D"]%char, Ccy_NZD);
    (["S"; "E"; "K"]%char, Ccy_SEK);
    (["N"; "O"; "K"]%char, Ccy_NOK);
    (["M"; "X"; "N"]%char, Ccy_MXN);
    (["Z"; "A"; "R"]%char, Ccy_ZAR);
    (["B"; "R"; "L"]%char, Ccy_BRL);
    (["I"; "N"; "R"]%char, Ccy_INR);
    (["R"; "U"; "B"]%char, Ccy_RUB);
    (["T"; "R"; "Y"]%char, Ccy_TRY);
    (["H"; "K"; "D"]%char, Ccy_HKD);
    (["S"; "G"; "D"]%char, Ccy_SGD);
    (["T"; "W"; "D"]%char, Ccy_TWD);
    (["T"; "H"; "B"]%char, Ccy_THB);
    (["I"; "D"; "R"]%char, Ccy_IDR);
    (["M"; "Y"; "R"]%char, Ccy_MYR);
    (["P"; "H"; "P"]%char, Ccy_PHP);
    (["V"; "N"; "D"]%char, Ccy_VND);
    (["P"; "K"; "R"]%char, Ccy_PKR);
    (["L"; "K"; "R"]%char, Ccy_LKR);
    (["B"; "D"; "T"]%char, Ccy_BDT);
    (["N"; "P"; "R"]%char, Ccy_NPR);
    (["K"; "Z"; "T"]%char, Ccy_KZT);
    (["U"; "Z"; "S"]%char, Ccy_UZS);
    (["K"; "G"; "S"]%char, Ccy_KGS);
    (["T"; "J"; "S"]%char, Ccy_TJS);
    (["M"; "N"; "T"]%char, Ccy_MNT);
    (["A"; "E"; "D"]%char, Ccy_AED);
    (["S"; "A"; "R"]%char, Ccy_SAR);
    (["Q"; "A"; "R"]%char, Ccy_QAR);
    (["O"; "M"; "R"]%char, Ccy_OMR);
    (["K"; "W"; "D"]%char, Ccy_KWD);
    (["B"; "H"; "D"]%char, Ccy_BHD);
    (["J"; "O"; "D"]%char, Ccy_JOD);
    (["I"; "L"; "S"]%char, Ccy_ILS);
    (["E"; "G"; "P"]%char, Ccy_EGP);
    (["Z"; "M"; "W"]%char, Ccy_ZMW)].
Definition ccy_of (s : list ascii) : currency := first_arm s ccy_arms Ccy_NIL.

(** currency.rs 176-180: FxCode *)
Record fx_code : Type := FxCode { fx_one : currency; fx_two : currency }.
(** currency.rs 208-213: reciprocal *)
Definition fx_reciprocal (x : fx_code) : fx_code := FxCode (fx_two x) (fx_one x).
(** currency.rs 215-219: Display *)
Definition fx_str (x : fx_code) : list ascii := ccy_str (fx_one x) ++ ccy_str (fx_two x).
(** currency.rs 182-190: Serialize; [{:?}] prints the name of the variant *)
Definition fx_serialized (x : fx_code) : list ascii := ccy_str (fx_one x) ++ ["_"]%char ++ ccy_str (fx_two x).
(** [str::is_char_boundary]: the end, or a byte that does not continue a character *)
Definition boundary (s : list ascii) (i : nat) : bool :=
  match i with
  | O => true
  | _ => match nth_error s i with
         | None => Nat.eqb i (length s)
         | Some b => negb ((128 <=? nat_of_ascii b)%nat && (nat_of_ascii b <? 192)%nat)
         end
  end.
(** [&s[i..j]] *)
Definition slice (s : list ascii) (i j : nat) : outcome (list ascii) :=
  if (i <=? j)%nat && boundary s i && boundary s j then Ret (firstn (j - i) (skipn i s)) else Panic.
(** currency.rs 229-239: From<&str> for FxCode *)
Definition fx_of (s : list ascii) : outcome fx_code :=
  let! a := slice s 0 3 in let! b := slice s 3 6 in Ret (FxCode (ccy_of a) (ccy_of b)).

(** utils/number_format.rs 19-24, 53-58: the characters from the last to the first, [count] of
    them before; a comma before every third *)
Fixpoint group_from (count : nat) (l acc : list ascii) : list ascii :=
  match l with
  | [] => acc
  | c :: l' => group_from (S count) l' (c :: (if (0 <? count)%nat && (count mod 3 =? 0)%nat then ","%char :: acc else acc))
  end.
(** [split('.')] *)
Fixpoint split_dot (l : list ascii) : list (list ascii) :=
  match l with
  | [] => [[]]
  | c :: l' => if Ascii.eqb c "."%char then [] :: split_dot l' else match split_dot l' with p :: r => (c :: p) :: r | [] => [[c]] end
  end.
(** number_format.rs 4-36 (write_number_with_commas), 38-70 (formatted_number), from the string
    that [format!] makes of the number: with one decimal, and with none *)
Definition with_commas (number : list ascii) : list ascii :=
  match split_dot number with
  | [] => []
  | int :: rest =>
      let dec := match rest with d :: _ => d | [] => [] end in
      let '(neg, digits) := match int with c :: r => if Ascii.eqb c "-"%char then (true, r) else (false, int) | [] => (false, []) end in
      let g := group_from 0 (rev digits) [] in
      let g := if neg then "-"%char :: g else g in
      match dec with [] => g | _ => g ++ "."%char :: dec end
  end.
