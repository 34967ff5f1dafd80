(** QVolSpec.v -- what a volatility surface is to be, in real numbers. *)
From Coq Require Import ZArith Arith List Reals.
From Verif Require Import Base FloatModel KrxModel QDateModel QYearModel QInterpModel QInterpSpec QDivModel QCurveModel QFutModel QVolModel QCurveSpec.
Import ListNotations.
Open Scope R_scope.

(** The function through the knots (a, u): straight between them, flat before the
    first and after the last. *)
Fixpoint onward (a u : R) (k : list (R * R)) (x : R) : R :=
  match k with
  | [] => u
  | (b, w) :: k' => if Rlt_dec x b then u + (w - u) / (b - a) * (x - a) else onward b w k' x
  end.
Definition piecewise (k : list (R * R)) (x : R) : R :=
  match k with [] => 0 | (a, u) :: k' => if Rlt_dec x a then u else onward a u k' x end.
(** The same in two directions: each row has its time and its own knots. *)
Definition sheet (rows : list (R * list (R * R))) (t x : R) : R := piecewise (map (fun r => (fst r, piecewise (snd r) x)) rows) t.
(** The knots of a surface whose rows have the forwards [fwds]: the moneyness m of
    the spot becomes the moneyness m * spot / forward of the row. *)
Definition knots (money : list f32) (spot fwd : f32) (row : list f32) : list (R * R) :=
  combine (map (fun m => value (gdiv (gmul m spot) fwd)) money) (map value row).
Definition sheet_rows (s : surface) (fwds : list f32) : list (R * list (R * R)) :=
  map (fun p => (value (fst p), knots (su_money s) (su_spot s) (fst (snd p)) (snd (snd p)))) (combine (su_times s) (combine fwds (su_grid s))).

(** each element with the next one *)
Definition steps {A} (P : A -> A -> Prop) (l : list A) : Prop := forall i a b, nth_error l i = Some a -> nth_error l (i + 1) = Some b -> P a b.
(** A surface of ordinary numbers: two tenors and two moneynesses or more, tenors
    half a minute apart and up to 1024 years, moneynesses between 1/1024 and 1024
    that differ by a millionth, spot and forwards between 2^-20 and 2^30,
    volatilities of at most M. *)
Record tame (s : surface) (fwds : list f32) (M : R) : Prop := Tame {
  tm_rows : (2 <= length (su_times s))%nat /\ length (su_grid s) = length (su_times s) /\ length fwds = length (su_times s);
  tm_cols : (2 <= length (su_money s))%nat /\ Forall (fun row => length row = length (su_money s)) (su_grid s);
  tm_times : Forall (fun t => finite t /\ 0 <= value t <= 2 ^ 10) (su_times s) /\ steps (fun a b => value a + / 2 ^ 20 <= value b) (su_times s);
  tm_money : Forall (fun m => finite m /\ / 2 ^ 10 <= value m <= 2 ^ 10) (su_money s) /\ steps (fun a b => value a * (1 + / 2 ^ 20) <= value b) (su_money s);
  tm_levels : Forall (fun x => finite x /\ / 2 ^ 20 <= value x <= 2 ^ 30) (su_spot s :: fwds);
  tm_vols : Forall (Forall (fun v => finite v /\ Rabs (value v) <= M)) (su_grid s) /\ M <= 2 ^ 10 }.
(** the forwards of the tenors, from the given spot price *)
Definition forwards (e : vol_env) (spot : f32) (s : surface) (fwds : list f32) : Prop :=
  Forall2 (fun d f => vol_forward e spot d = Ret (ROk f)) (su_dates s) fwds.
(** the price a surface takes its forwards from *)
Definition sticky_spot (e : vol_env) (s : surface) : f32 := match su_sticky s with StickyToMoneyness => su_spot s | StickyToStrike => ve_price e end.

(** ** Quotes *)
(** the moneyness of the quoted strikes against the quoted spot price *)
Definition quote_money (d : surface_data) (spot : f32) : list f32 := map (fun k => gdiv k spot) (sd_strikes d).
(** the quotes as a sheet: one row for each date, at its time *)
Definition quote_rows (d : surface_data) (spot : f32) (times : list f32) : list (R * list (R * R)) :=
  map (fun p => (value (fst p), combine (map value (quote_money d spot)) (map value (snd p)))) (combine times (sd_value d)).
(** quotes of ordinary numbers, as [tame] *)
Record tame_quotes (d : surface_data) (spot : f32) (times : list f32) (M : R) : Prop := TameQuotes {
  tq_rows : (2 <= length times)%nat /\ length (sd_value d) = length times;
  tq_cols : (2 <= length (sd_strikes d))%nat /\ sd_cols d = length (sd_strikes d) /\ Forall (fun row => length row = length (sd_strikes d)) (sd_value d);
  tq_times : Forall (fun t => finite t /\ 0 <= value t <= 2 ^ 10) times /\ steps (fun a b => value a + / 2 ^ 20 <= value b) times;
  tq_money : Forall (fun m => finite m /\ / 2 ^ 10 <= value m <= 2 ^ 10) (quote_money d spot) /\ steps (fun a b => value a * (1 + / 2 ^ 20) <= value b) (quote_money d spot);
  tq_vols : Forall (Forall (fun v => finite v /\ Rabs (value v) <= M)) (sd_value d) /\ M <= 2 ^ 10 }.
(** the times of the dates *)
Definition times_of (eval : odt) (dates : list odt) (times : list f32) : Prop := Forall2 (fun d t => get_time_difference eval d = Ret t) dates times.

(** ** Bumps *)
(** knots about nine hours apart (or a thousandth of moneyness), up to 1024 *)
Definition apart (l : list f32) : Prop := Forall (fun t => finite t /\ 0 <= value t <= 2 ^ 10) l /\ steps (fun a b => value a + / 2 ^ 10 <= value b) l.
(** [x] is no bound, or the knot number [i] *)
Definition bound_at (l : list f32) (i : option nat) (x : option f32) : Prop :=
  match i, x with None, None => True | Some i, Some v => nth_error l i = Some v | _, _ => False end.
(** the knots after number [i], those up to number [j] *)
Definition after (i : option nat) (k : nat) : bool := match i with None => true | Some i => (i <? k)%nat end.
Definition upto (j : option nat) (k : nat) : bool := match j with None => true | Some j => (k <=? j)%nat end.
(** the cell in row [i] and column [j] *)
Definition cell (g : list (list f32)) (i j : nat) : option f32 := match nth_error g i with Some row => nth_error row j | None => None end.
