(** QInstSpec.v -- vocabulary for the statements about portfolios. *)
From Coq Require Import ZArith String List Bool.
From Verif Require Import Base KrxModel QDateModel QMoneyModel QSwapModel QFutModel QInstModel.
Import ListNotations.
Open Scope Z_scope.

(** [firsts l r]: r lists the members of l, each once, in the order in which they
    first appear *)
Inductive firsts {A} : list A -> list A -> Prop :=
| firsts_nil : firsts [] []
| firsts_new l r x : firsts l r -> ~ In x l -> firsts (l ++ [x]) (r ++ [x])
| firsts_old l r x : firsts l r -> In x l -> firsts (l ++ [x]) r.

(** [picked l r]: r is l with some members left out *)
Inductive picked {A} : list A -> list A -> Prop :=
| picked_nil : picked [] []
| picked_keep x l r : picked l r -> picked (x :: l) (x :: r)
| picked_drop x l r : picked l r -> picked (x :: l) r.

(** the currencies an instrument is paid or quoted in *)
Definition futures_ccy (i : instrument) : list currency := match in_kind i with KFutures _ c | KFxFutures c _ => [c] | _ => [] end.
Definition swap_ccy (i : instrument) : list currency := match in_kind i with KSwap _ c _ _ => [c] | _ => [] end.

(** the curves an instrument needs: where the rate index of a bond or swap, the
    funding of an option that is not settled daily, the collateral of each
    underlying, the two currencies of a swap (other than an interest rate swap) or
    FX future are looked up, and the curve of a bond's issuer if there is one *)
Definition index_of (i : instrument) : option string := match in_kind i with KBond _ _ _ (Some x) | KSwap _ _ (Some x) _ => Some (fst x) | _ => None end.
Definition unsettled (i : instrument) : Prop := match in_kind i with KOption _ _ _ false _ => True | _ => False end.
Definition two_ccys (i : instrument) : option (currency * currency) :=
  match in_kind i with KSwap IRS _ _ _ => None | KSwap _ c _ _ => Some (in_ccy i, c) | KFxFutures c _ => Some (in_ccy i, c) | _ => None end.
Inductive needs (m : match_parameter) (i : instrument) : option string -> Prop :=
| need_index c : index_of i = Some c -> needs m i (mp_index m c)
| need_funding : unsettled i -> needs m i (mp_funding m (in_ccy i))
| need_collateral u : In u (underlyings i) -> needs m i (mp_collateral m u)
| need_first a b : two_ccys i = Some (a, b) -> needs m i (mp_crs m a)
| need_second a b : two_ccys i = Some (a, b) -> needs m i (mp_crs m b)
| need_issuer is t r x n : in_kind i = KBond is t r x -> mp_bond m (is, t, r, in_ccy i) = Some n -> needs m i (Some n).

(** the category takes the instrument *)
Definition belongs (g : category) (i : instrument) : Prop :=
  (forall ts, ca_types g = Some ts -> In (type_name i) ts) /\
  (forall cs, ca_ccys g = Some cs -> In (ccy i) cs) /\
  (forall us, ca_unds g = Some us -> underlyings i = [] \/ underlyings i = us).
(** its first category is the k-th *)
Definition home (gs : list category) (i : instrument) (k : nat) : Prop :=
  (exists g, nth_error gs k = Some g /\ belongs g i) /\ forall j g, (j < k)%nat -> nth_error gs j = Some g -> ~ belongs g i.
