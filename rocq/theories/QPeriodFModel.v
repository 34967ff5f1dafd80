(** QPeriodFModel.v -- a period string as a number of years
    (quantlib/src/utils/string_arithmetic.rs 8-46), on f32. *)
From Coq Require Import ZArith List Bool Ascii String.
From Flocq Require Import IEEE754.BinarySingleNaN.
From Verif Require Import Base FloatModel QDateModel QCalModel QPeriodModel.
Import ListNotations.
Open Scope Z_scope.

(** the literals 30.5 and 365.25, which f32 holds exactly *)
Definition c30_5 : f32 := gdiv (gof_Z 61) (gof_Z 2).
Definition c365_25 : f32 := gdiv (gof_Z 1461) (gof_Z 4).

(** string_arithmetic.rs 24-42: what one capture adds ([value] is
    [cap[1].parse::<f32>()], the nearest f32, or infinity) *)
Definition years_of_capture (value : f32) (u : punit) : f32 :=
  match u with
  | UY => value
  | UM => gdiv (gmul value c30_5) c365_25
  | UW => gdiv (gmul value (gof_Z 7)) c365_25
  | UD => gdiv value c365_25
  | Uh => gdiv value (gmul c365_25 (gof_Z 24))
  | Umin => gdiv value (gmul (gmul c365_25 (gof_Z 24)) (gof_Z 60))
  | Usec => gdiv value (gmul (gmul (gmul c365_25 (gof_Z 24)) (gof_Z 60)) (gof_Z 60))
  end.

(** string_arithmetic.rs 10-46: from_period_string_to_float *)
Definition from_period_string_to_float (s : list ascii) : rresult f32 :=
  match captures all_units s with
  | [] => RErr
  | cs => ROk (fold_left (fun r x => gadd r (years_of_capture (gof_Z (number (fst x))) (snd x))) cs gzero)
  end.
