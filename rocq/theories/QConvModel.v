(** QConvModel.v -- the rest of the configuration and of the results: the setters of
    quantlib/src/pricing_engines/calculation_configuration.rs (238-395) and
    representation_currency_conversion of calculation_result.rs (462-610). *)
From Coq Require Import ZArith Ascii String.
From Coq Require Import List Bool.
From Verif Require Import Base FloatModel KrxModel QDateModel QMoneyModel QEngModel.
Import ListNotations.
Open Scope Z_scope.

(** calculation_configuration.rs 238-241: with_theta_day *)
Definition with_theta_day (x : Z) (c : config) : config := Config (cf_npv c) (cf_fx c) (cf_delta c) (cf_gamma c) (cf_vega c) (cf_rho c) (cf_div c) (cf_theta c) (cf_vega_structure c) (cf_rho_structure c) (cf_div_structure c) (cf_vega_matrix c)
  (cf_delta_ratio c) (cf_gamma_ratio c) (cf_vega_bump c) (cf_vega_structure_bump c) (cf_vega_matrix_bump c) (cf_rho_bump c) (cf_div_bump c) x (cf_rho_tenors c) (cf_vega_tenors c) (cf_div_tenors c) (cf_moneyness c).
(** 243-246: with_delta_calculation *)
Definition with_delta (x : bool) (c : config) : config := Config (cf_npv c) (cf_fx c) x (cf_gamma c) (cf_vega c) (cf_rho c) (cf_div c) (cf_theta c) (cf_vega_structure c) (cf_rho_structure c) (cf_div_structure c) (cf_vega_matrix c)
  (cf_delta_ratio c) (cf_gamma_ratio c) (cf_vega_bump c) (cf_vega_structure_bump c) (cf_vega_matrix_bump c) (cf_rho_bump c) (cf_div_bump c) (cf_theta_day c) (cf_rho_tenors c) (cf_vega_tenors c) (cf_div_tenors c) (cf_moneyness c).
(** 248-251: with_gamma_calculation *)
Definition with_gamma (x : bool) (c : config) : config := Config (cf_npv c) (cf_fx c) (cf_delta c) x (cf_vega c) (cf_rho c) (cf_div c) (cf_theta c) (cf_vega_structure c) (cf_rho_structure c) (cf_div_structure c) (cf_vega_matrix c)
  (cf_delta_ratio c) (cf_gamma_ratio c) (cf_vega_bump c) (cf_vega_structure_bump c) (cf_vega_matrix_bump c) (cf_rho_bump c) (cf_div_bump c) (cf_theta_day c) (cf_rho_tenors c) (cf_vega_tenors c) (cf_div_tenors c) (cf_moneyness c).
(** 308-311: with_delta_bump_ratio *)
Definition with_delta_bump_ratio (x : f32) (c : config) : config := Config (cf_npv c) (cf_fx c) (cf_delta c) (cf_gamma c) (cf_vega c) (cf_rho c) (cf_div c) (cf_theta c) (cf_vega_structure c) (cf_rho_structure c) (cf_div_structure c) (cf_vega_matrix c)
  x (cf_gamma_ratio c) (cf_vega_bump c) (cf_vega_structure_bump c) (cf_vega_matrix_bump c) (cf_rho_bump c) (cf_div_bump c) (cf_theta_day c) (cf_rho_tenors c) (cf_vega_tenors c) (cf_div_tenors c) (cf_moneyness c).
(** 313-316: with_gamma_bump_ratio *)
Definition with_gamma_bump_ratio (x : f32) (c : config) : config := Config (cf_npv c) (cf_fx c) (cf_delta c) (cf_gamma c) (cf_vega c) (cf_rho c) (cf_div c) (cf_theta c) (cf_vega_structure c) (cf_rho_structure c) (cf_div_structure c) (cf_vega_matrix c)
  (cf_delta_ratio c) x (cf_vega_bump c) (cf_vega_structure_bump c) (cf_vega_matrix_bump c) (cf_rho_bump c) (cf_div_bump c) (cf_theta_day c) (cf_rho_tenors c) (cf_vega_tenors c) (cf_div_tenors c) (cf_moneyness c).
(** 318-321: with_vega_bump_value *)
Definition with_vega_bump_value (x : f32) (c : config) : config := Config (cf_npv c) (cf_fx c) (cf_delta c) (cf_gamma c) (cf_vega c) (cf_rho c) (cf_div c) (cf_theta c) (cf_vega_structure c) (cf_rho_structure c) (cf_div_structure c) (cf_vega_matrix c)
  (cf_delta_ratio c) (cf_gamma_ratio c) x (cf_vega_structure_bump c) (cf_vega_matrix_bump c) (cf_rho_bump c) (cf_div_bump c) (cf_theta_day c) (cf_rho_tenors c) (cf_vega_tenors c) (cf_div_tenors c) (cf_moneyness c).
(** 339-342: with_rho_bump_value *)
Definition with_rho_bump_value (x : f32) (c : config) : config := Config (cf_npv c) (cf_fx c) (cf_delta c) (cf_gamma c) (cf_vega c) (cf_rho c) (cf_div c) (cf_theta c) (cf_vega_structure c) (cf_rho_structure c) (cf_div_structure c) (cf_vega_matrix c)
  (cf_delta_ratio c) (cf_gamma_ratio c) (cf_vega_bump c) (cf_vega_structure_bump c) (cf_vega_matrix_bump c) x (cf_div_bump c) (cf_theta_day c) (cf_rho_tenors c) (cf_vega_tenors c) (cf_div_tenors c) (cf_moneyness c).

(** a report with the currency it is in: the fields calculation_result.rs 25-45 that
    [calc] does not have (the instrument's information, the evaluation date, theta_day
    are passed on as they are and are left out) *)
Record report : Type := Report { rp_ccy : option currency; rp_calc : calc }.
(** calculation_result.rs 213-241: a new report is in the currency of the instrument *)
Definition report_new (i_ccy : currency) (unit : f32) : report := Report (Some i_ccy) (calc_new unit).
(** 445-447: set_representation_currency *)
Definition set_representation_currency (c : currency) (r : report) : report := Report (Some c) (rp_calc r).
(** 462-610: representation_currency_conversion.  The maps are rebuilt entry by entry *)
Definition convert (r : report) (c : currency) (fx : f32) : outcome (rresult report) :=
  match rp_ccy r with
  | None => Panic
  | Some own =>
      if ccy_eqb c own then Ret (ROk r) else
      let k := rp_calc r in
      Ret (ROk (Report (Some c)
        (Calc (ca_unit k) (ca_npv k) (option_map (fun x => gmul x fx) (ca_value k)) (option_map (map (fun '(d, v) => (d, gmul v fx))) (ca_fx k))
          (fun g u => option_map (fun v => gmul v fx) (ca_greek k g u)) (fun g u => option_map (map (fun v => gmul v fx)) (ca_ladder k g u))
          (fun u => option_map (map (map (fun v => gmul v fx))) (ca_matrix k u)) (option_map (fun v => gmul v fx) (ca_theta k)) (ca_cash k))))
  end.
