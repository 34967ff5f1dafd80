(** MiscSpec.v -- KRX codes read by their letters (C211). *)
From Coq Require Import ZArith Ascii String List.
Import ListNotations.
Open Scope string_scope.
(** a number of two digits *)
Definition two_digits (n : nat) : string := String (ascii_of_nat (48 + n / 10)) (String (ascii_of_nat (48 + n mod 10)) "").
(** trades begin with A3, quotes with B6 (B7 with those of liquidity providers), both
    together with G7; the product and the market follow *)
Definition trade_code (n : nat) (market : string) : string := "A3" ++ two_digits n ++ market.
Definition quote_code (n : nat) (market : string) : string := "B6" ++ two_digits n ++ market.
Definition lp_code (n : nat) (market : string) : string := "B7" ++ two_digits n ++ market.
Definition both_code (n : nat) (market : string) : string := "G7" ++ two_digits n ++ market.
Definition security (m : string) : Prop := m = "S" \/ m = "Q" \/ m = "X".
Definition bond_market (m : string) : Prop := m = "B" \/ m = "K" \/ m = "M".
(** stock futures and options, products 4 and 5, have ten levels, the others five *)
Definition ten_levels (n : nat) : Prop := n = 4%nat \/ n = 5%nat.
(** what interface a code may have *)
Inductive may_be : string -> string -> Prop :=
| derivative_trade : forall n, (1 <= n <= 16)%nat -> may_be (trade_code n "F") "IFMSRPD0036"
| derivative_quote_5 : forall n, (1 <= n <= 16)%nat -> ~ ten_levels n -> may_be (quote_code n "F") "IFMSRPD0034"
| derivative_quote_10 : forall n, ten_levels n -> may_be (quote_code n "F") "IFMSRPD0035"
| derivative_both_5 : forall n, (1 <= n <= 16)%nat -> ~ ten_levels n -> may_be (both_code n "F") "IFMSRPD0037"
| derivative_both_10 : forall n, ten_levels n -> may_be (both_code n "F") "IFMSRPD0038"
| security_trade : forall n m, (1 <= n <= 4)%nat -> security m -> may_be (trade_code n m) "IFMSRPD0004"
| security_quote : forall m, security m -> may_be (quote_code 1 m) "IFMSRPD0002"
| security_lp : forall n m, (2 <= n <= 4)%nat -> security m -> may_be (lp_code n m) "IFMSRPD0003"
| bond_trade : forall m, bond_market m -> may_be (trade_code 1 m) "IFMSRPD0027"
| bond_quote : forall m, bond_market m -> may_be (quote_code 1 m) "IFMSRPD0023"
| bond_both : forall m, bond_market m -> may_be (both_code 1 m) "IFMSRPD0029".
