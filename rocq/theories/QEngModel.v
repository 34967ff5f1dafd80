(** QEngModel.v -- the engine (quantlib/src/pricing_engines/engine.rs,
    calculation_configuration.rs, calculation_result.rs).

    The market is what the engine bumps: the evaluation date with the prices and
    dividends that follow it, the curves by name and the volatility surfaces by
    code.  A pricer is any function of the market: the theorems hold for all of
    them.  Each method is a state transformer that keeps what was done before an
    error.  A HashMap is a function from keys; where one is iterated the context
    lists its keys in some order.  Logging, timing and message tags are left out;
    an [Option<HashMap>] that was never set and an empty map are the same. *)
From Coq Require Import ZArith Ascii String List Bool.
From Flocq Require Import Core IEEE754.BinarySingleNaN.
From Verif Require Import Base FloatModel KrxModel QDateModel QYearModel QPeriodModel QFindModel QInterpModel QDivModel QCurveModel QMoneyModel QBondModel QFutModel QInstModel QVolModel.
Import ListNotations.
Open Scope Z_scope.

(** ** What is bumped *)
(** engine.rs 56: an entry of [volatilities]: the surface and the names of the
    curves it refers to (245-300: they are looked up in [zero_curves]) *)
Record vol_entry : Type := VolEntry { vt_surface : surface; vt_coll : string; vt_borrow : string }.
(** engine.rs 51-57; prices and dividends are shared objects: the maps give their
    places in the [world].  Exchange rates, quantos and past prices never change
    once made and belong to the pricers. *)
Record market : Type := Market { mk_world : world; mk_equity : string -> option nat; mk_dividend : string -> option nat;
  mk_curve : string -> option curve; mk_vol : string -> option vol_entry }.
(** [HashMap::insert] *)
Definition put {A} (m : string -> option A) (k : string) (v : A) : string -> option A := fun x => if String.eqb x k then Some v else m x.
Definition with_world (m : market) (w : world) : market := Market w (mk_equity m) (mk_dividend m) (mk_curve m) (mk_vol m).
Definition with_curve (m : market) (n : string) (c : curve) : market := Market (mk_world m) (mk_equity m) (mk_dividend m) (put (mk_curve m) n c) (mk_vol m).
Definition with_vol (m : market) (u : string) (v : vol_entry) : market := Market (mk_world m) (mk_equity m) (mk_dividend m) (mk_curve m) (put (mk_vol m) u v).
(** market_price.rs 55-57: get_value *)
Definition equity (m : market) (u : string) : option market_price := match mk_equity m u with Some k => nth_error (w_prices (mk_world m)) k | None => None end.
(** market_price.rs 47-49, 137-141: set_price and [*=], which touch the value only *)
Definition with_price (m : market) (u : string) (x : f32) : market :=
  match mk_equity m u, equity m u with
  | Some k, Some p => let w := mk_world m in with_world m (World (w_date w) (set_nth (w_prices w) k (MarketPrice x (mp_dt p) (mp_div p))) (w_dividends w) (w_pobs w) (w_dobs w))
  | _, _ => m
  end.
(** what the surface of [u] refers to (local_volatility_surface.rs 31-34) *)
Definition env_of (m : market) (u : string) (v : vol_entry) : option vol_env :=
  match mk_curve m (vt_coll v), mk_curve m (vt_borrow v), equity m u with
  | Some a, Some b, Some p =>
      Some (VolEnv (w_date (mk_world m)) a b (mp_value p) (match mp_div p with Some k => nth_error (w_dividends (mk_world m)) k | None => None end))
  | _, _, _ => None
  end.

(** ** Configuration: calculation_configuration.rs 13-46, the fields that are read *)
Record config : Type := Config { cf_npv : bool; cf_fx : bool; cf_delta : bool; cf_gamma : bool; cf_vega : bool; cf_rho : bool; cf_div : bool; cf_theta : bool;
  cf_vega_structure : bool; cf_rho_structure : bool; cf_div_structure : bool; cf_vega_matrix : bool;
  cf_delta_ratio : f32; cf_gamma_ratio : f32; cf_vega_bump : f32; cf_vega_structure_bump : f32; cf_vega_matrix_bump : f32; cf_rho_bump : f32; cf_div_bump : f32; cf_theta_day : Z;
  cf_rho_tenors : list (list ascii); cf_vega_tenors : list (list ascii); cf_div_tenors : list (list ascii); cf_moneyness : list f32 }.
(** 118-226: new checks what it is given *)
Definition config_new (c : config) : rresult config :=
  if negb (Bool.eqb (cf_delta c) (cf_gamma c)) then RErr
  else if gle (cf_delta_ratio c) (gof_Z 0) then RErr
  else if gle (cf_gamma_ratio c) (gof_Z 0) then RErr
  else if gle (cf_rho_bump c) (gof_Z 0) then RErr
  else if gle (cf_vega_bump c) (gof_Z 0) then RErr
  else if gle (cf_vega_structure_bump c) (gof_Z 0) then RErr
  else if gle (cf_vega_matrix_bump c) (gof_Z 0) then RErr
  else if cf_theta_day c <=? 0 then RErr
  else if gle (cf_div_bump c) (gof_Z 0) then RErr
  else ROk c.
(** definitions.rs 27-32: the units of profit and loss, the nearest f32 to 0.01
    and 0.0001 (a correctly rounded quotient of small integers), and 1 *)
Definition pct : f32 := gdiv (gof_Z 1) (gof_Z 100).
Definition bp : f32 := gdiv (gof_Z 1) (gof_Z 10000).
Definition half : f32 := gdiv (gof_Z 1) (gof_Z 2).

(** ** Results: calculation_result.rs 25-43 *)
Inductive greek : Type := Delta | Gamma | Vega | Rho | DivDelta.
Inductive ladder : Type := VegaLadder | RhoLadder | DivLadder.
Record calc : Type := Calc { ca_unit : f32; ca_npv : option npv_result; ca_value : option f32; ca_fx : option (list (currency * f32));
  ca_greek : greek -> string -> option f32; ca_ladder : ladder -> string -> option (list f32); ca_matrix : string -> option (list (list f32));
  ca_theta : option f32; ca_cash : option (list (odt * f32)) }.
(** 213-241: new *)
Definition calc_new (unit : f32) : calc := Calc unit None None None (fun _ _ => None) (fun _ _ => None) (fun _ => None) None None.
Definition greek_eqb (a b : greek) : bool := match a, b with Delta, Delta | Gamma, Gamma | Vega, Vega | Rho, Rho | DivDelta, DivDelta => true | _, _ => false end.
Definition ladder_eqb (a b : ladder) : bool := match a, b with VegaLadder, VegaLadder | RhoLadder, RhoLadder | DivLadder, DivLadder => true | _, _ => false end.
(** 243-245: set_npv *)
Definition set_npv (r : npv_result) (c : calc) : calc := Calc (ca_unit c) (Some r) (ca_value c) (ca_fx c) (ca_greek c) (ca_ladder c) (ca_matrix c) (ca_theta c) (ca_cash c).
(** 251-265: set_value *)
Definition set_value (c : calc) : rresult calc :=
  match ca_npv c with
  | None => RErr
  | Some r => ROk (Calc (ca_unit c) (ca_npv c) (Some (gmul (nr_npv r) (ca_unit c))) (ca_fx c) (ca_greek c) (ca_ladder c) (ca_matrix c) (ca_theta c) (ca_cash c))
  end.
(** 271-273: set_fx_exposure *)
Definition set_fx (f : list (currency * f32)) (c : calc) : calc := Calc (ca_unit c) (ca_npv c) (ca_value c) (Some f) (ca_greek c) (ca_ladder c) (ca_matrix c) (ca_theta c) (ca_cash c).
(** 277-302, 317-341, 356-367: set_single_delta, gamma, vega, rho, div_delta *)
Definition set_greek (g : greek) (k : string) (v : f32) (c : calc) : calc :=
  Calc (ca_unit c) (ca_npv c) (ca_value c) (ca_fx c) (fun h => if greek_eqb h g then put (ca_greek c h) k v else ca_greek c h) (ca_ladder c) (ca_matrix c) (ca_theta c) (ca_cash c).
(** 304-315, 343-354, 369-380: set_single_vega_structure, rho, div *)
Definition set_ladder (g : ladder) (k : string) (v : list f32) (c : calc) : calc :=
  Calc (ca_unit c) (ca_npv c) (ca_value c) (ca_fx c) (ca_greek c) (fun h => if ladder_eqb h g then put (ca_ladder c h) k v else ca_ladder c h) (ca_matrix c) (ca_theta c) (ca_cash c).
(** 449-460: set_single_vega_matrix *)
Definition set_matrix (k : string) (v : list (list f32)) (c : calc) : calc :=
  Calc (ca_unit c) (ca_npv c) (ca_value c) (ca_fx c) (ca_greek c) (ca_ladder c) (put (ca_matrix c) k v) (ca_theta c) (ca_cash c).
(** 386-388: set_theta *)
Definition set_theta (v : f32) (c : calc) : calc := Calc (ca_unit c) (ca_npv c) (ca_value c) (ca_fx c) (ca_greek c) (ca_ladder c) (ca_matrix c) (Some v) (ca_cash c).
(** 390-392: set_cashflows *)
Definition set_cash (v : list (odt * f32)) (c : calc) : calc := Calc (ca_unit c) (ca_npv c) (ca_value c) (ca_fx c) (ca_greek c) (ca_ladder c) (ca_matrix c) (ca_theta c) (Some v).

(** ** The engine *)
(** pricer.rs 15-32: PricerTrait *)
Record pricer : Type := Pricer { pr_npv : market -> instrument -> outcome (rresult f32); pr_result : market -> instrument -> outcome (rresult npv_result);
  pr_fx : market -> instrument -> f32 -> outcome (rresult (list (currency * f32))) }.
(** pricer.rs 22-31: the fx_exposure of most pricers *)
Definition own_fx (_ : market) (i : instrument) (npv : f32) : outcome (rresult (list (currency * f32))) := Ret (ROk [(ccy i, gmul npv (notional i))]).
(** engine.rs 45-66: what stays: instruments, pricers, match parameter,
    configuration; the keys of [calculation_results] and [dividends] in the order
    they are iterated; the order in which a map of cash flows is; [f32::exp] *)
Record context : Type := Context { cx_insts : list instrument; cx_pricer : string -> option pricer; cx_match : match_parameter; cx_config : config;
  cx_keys : list string; cx_div_keys : list string; cx_coupons : list (Z * (odt * f32)) -> list (Z * (odt * f32)); cx_cash : list (odt * f32) -> list (odt * f32); cx_exp : f32 -> f32 }.
(** what changes: the market, [calculation_results], [instruments_in_action] *)
Record state : Type := State { st_market : market; st_results : string -> option calc; st_action : list instrument }.
Definition act (A : Type) : Type := state -> outcome (rresult A * state).
Definition done {A} (x : A) : act A := fun s => Ret (ROk x, s).
Definition fail {A} : act A := fun s => Ret (RErr, s).
(** [?] *)
Definition andthen {A B} (a : act A) (f : A -> act B) : act B :=
  fun s => match a s with Ret (ROk x, s') => f x s' | Ret (RErr, s') => Ret (RErr, s') | Panic => Panic | Diverge => Diverge end.
Notation "'let*' x ':=' e1 'in' e2" := (andthen e1 (fun x => e2)) (at level 200, x name, e1 at level 100, e2 at level 200, right associativity).
Definition need {A} (o : option A) : act A := match o with Some x => done x | None => fail end.
Definition pure {A} (o : outcome (rresult A)) : act A := fun s => match o with Ret r => Ret (r, s) | Panic => Panic | Diverge => Diverge end.
Definition total {A} (o : outcome A) : act A := fun s => match o with Ret r => Ret (ROk r, s) | Panic => Panic | Diverge => Diverge end.
Definition get_state : act state := fun s => Ret (ROk s, s).
Definition set_market (m : market) : act unit := fun s => Ret (ROk tt, State m (st_results s) (st_action s)).
Definition set_action (is : list instrument) : act unit := fun s => Ret (ROk tt, State (st_market s) (st_results s) is).
(** [for x in l] *)
Fixpoint each {A} (f : A -> act unit) (l : list A) : act unit := match l with [] => done tt | x :: l' => let* _ := f x in each f l' end.
(** [calculation_results.get(code).ok_or(..)?.borrow_mut().set_..(..)] *)
Definition edit (k : string) (f : calc -> calc) : act unit :=
  fun s => match st_results s k with Some c => Ret (ROk tt, State (st_market s) (put (st_results s) k (f c)) (st_action s)) | None => Ret (RErr, s) end.
Definition result_of (k : string) : act calc := fun s => match st_results s k with Some c => Ret (ROk c, s) | None => Ret (RErr, s) end.
(** [..get(code)?.borrow().get_npv_result()?.get_npv()] *)
Definition npv_of (k : string) : act f32 := let* c := result_of k in let* r := need (ca_npv c) in done (nr_npv r).

Section Engine.
Context (cx : context).

(** engine.rs 696-723: get_npvs, from the map so far *)
Fixpoint npvs_from (m : market) (acc : string -> option f32) (is : list instrument) : outcome (rresult (string -> option f32)) :=
  match is with
  | [] => Ret (ROk acc)
  | i :: is' =>
      match cx_pricer cx (code i) with
      | None => Ret RErr
      | Some p => let? x := pr_npv p m i in npvs_from m (put acc (code i) x) is'
      end
  end.
Definition get_npvs : act (string -> option f32) := let* s := get_state in pure (npvs_from (st_market s) (fun _ => None) (st_action s)).
(** 725-743: get_npv_results *)
Fixpoint results_from (m : market) (acc : string -> option npv_result) (is : list instrument) : outcome (rresult (string -> option npv_result)) :=
  match is with
  | [] => Ret (ROk acc)
  | i :: is' =>
      match cx_pricer cx (code i) with
      | None => Ret RErr
      | Some p => let? x := pr_result p m i in results_from m (put acc (code i) x) is'
      end
  end.
Definition get_npv_results : act (string -> option npv_result) := let* s := get_state in pure (results_from (st_market s) (fun _ => None) (st_action s)).
(** 745-756: set_npv_results *)
Definition set_npv_results : act unit := let* npvs := get_npv_results in each (fun k => let* r := need (npvs k) in edit k (set_npv r)) (cx_keys cx).
(** 815-820: set_values *)
Definition set_values : act unit := each (fun k => let* c := result_of k in let* c' := pure (Ret (set_value c)) in edit k (fun _ => c')) (cx_keys cx).
(** 758-772: set_cashflow_inbetween *)
Definition set_cashflow_inbetween : act unit :=
  each (fun k => let* c := result_of k in let* r := need (ca_npv c) in let* l := pure (Ret (expected_coupons (cx_coupons cx) r)) in edit k (set_cash l)) (cx_keys cx).
(** 774-812: set_fx_exposures *)
Fixpoint exposures (m : market) (acc : string -> option (list (currency * f32))) (is : list instrument) : act (string -> option (list (currency * f32))) :=
  match is with
  | [] => done acc
  | i :: is' =>
      let* p := need (cx_pricer cx (code i)) in
      let* npv := npv_of (code i) in
      let* f := pure (pr_fx p m i npv) in
      exposures m (put acc (code i) f) is'
  end.
Definition set_fx_exposures : act unit :=
  let* s := get_state in
  let* fs := exposures (st_market s) (fun _ => None) (st_action s) in
  each (fun k => let* f := need (fs k) in edit k (set_fx f)) (cx_keys cx).

(** ** Delta and gamma *)
(** 822-881: preprocess_delta_gamma *)
Definition preprocess_delta_gamma : act unit :=
  each (fun i => let* npv := npv_of (code i) in
                 let* _ := edit (code i) (set_greek Delta (code i) (gmul (gmul npv pct) (notional i))) in
                 edit (code i) (set_greek Gamma (code i) (gof_Z 0))) (with_types (cx_insts cx) ["Stock"; "Futures"]%string).
(** 943-992: delta and gamma of one instrument *)
Definition store_delta (u : string) (r : f32) (ups downs : string -> option f32) (i : instrument) : act unit :=
  let* up := need (ups (code i)) in
  let* down := need (downs (code i)) in
  let delta := gmul (gdiv (gsub up down) (gmul (gof_Z 2) r)) pct in
  let* _ := edit (code i) (set_greek Delta u (gmul delta (notional i))) in
  let* mid := npv_of (code i) in
  let gamma := gsub (gadd (gsub up mid) down) mid in
  let gamma := gmul gamma (gdiv pct r) in
  let gamma := gmul gamma (gmul half (gdiv pct r)) in
  edit (code i) (set_greek Gamma u (gmul gamma (notional i))).
(** 902-1003: one underlying *)
Definition delta_of (r : f32) (u : string) : act unit :=
  let is := with_underlying (cx_insts cx) u ["Stock"; "Futures"]%string in
  let* _ := set_action is in
  match is with
  | [] => done tt
  | _ =>
      let* s := get_state in
      let* p := need (equity (st_market s) u) in
      let original := mp_value p in
      let* _ := set_market (with_price (st_market s) u (gmul original (gadd (gof_Z 1) r))) in
      let* ups := get_npvs in
      let* s1 := get_state in
      let* _ := set_market (with_price (st_market s1) u (gmul original (gsub (gof_Z 1) r))) in
      let* downs := get_npvs in
      let* _ := each (store_delta u r ups downs) is in
      let* s2 := get_state in
      set_market (with_price (st_market s2) u original)
  end.
(** 883-1006: set_delta_gamma *)
Definition set_delta_gamma : act unit :=
  let* _ := set_action (cx_insts cx) in
  each (delta_of (cf_delta_ratio (cx_config cx))) (all_underlyings (cx_insts cx)).

(** ** Bumps *)
(** [zero_curves.get(name)?.borrow_mut().bump_time_interval(..)?] *)
Definition bump_curve (n : string) (t1 t2 : option f32) (b : f32) : act unit :=
  let* s := get_state in
  let* c := need (mk_curve (st_market s) n) in
  let* r := total (bump_times (cx_exp cx) c t1 t2 b) in
  let* _ := set_market (with_curve (st_market s) n (snd r)) in
  pure (Ret (fst r)).
(** [volatilities.get(code)?.borrow_mut().bump_volatility(..)?]; if the surface
    cannot be built it keeps its interpolator over the bumped grid
    (local_volatility_surface.rs 433-465).  The surface holds its curves and its
    price, so that [env_of] is never missing. *)
Definition bump_vol (u : string) (t1 t2 l r : option f32) (b : f32) : act unit :=
  let* s := get_state in
  let* v := need (mk_vol (st_market s) u) in
  match env_of (st_market s) u v with
  | None => total Panic
  | Some e =>
      let o := vt_surface v in
      let* x := total (bump_surface e t1 t2 l r b o) in
      let o' := match x with
                | ROk o' => o'
                | RErr => Surface (bump_grid t1 t2 l r b (su_times o) (su_money o) (su_grid o)) (su_dates o) (su_times o) (su_money o) (su_spot o) (su_interp o) (su_sticky o)
                end in
      let* _ := set_market (with_vol (st_market s) u (VolEntry o' (vt_coll v) (vt_borrow v))) in
      match x with ROk _ => done tt | RErr => fail end
  end.
(** [dividends.get(code).unwrap().clone().unwrap().borrow_mut().bump_date_interval(..)?] *)
Definition bump_div (u : string) (d1 d2 : option odt) (b : f32) : act unit :=
  let* s := get_state in
  match mk_dividend (st_market s) u with
  | None => total Panic
  | Some k =>
      match nth_error (w_dividends (mk_world (st_market s))) k with
      | None => total Panic
      | Some v =>
          let* r := total (bump_dividend v d1 d2 b) in
          let w := mk_world (st_market s) in
          let* _ := set_market (with_world (st_market s) (World (w_date w) (w_prices w) (set_nth (w_dividends w) k (snd r)) (w_pobs w) (w_dobs w))) in
          pure (Ret (fst r))
      end
  end.

(** ** One bump up: rho, vega, div_delta *)
(** 1044-1073, 1127-1169, 1557-1578: the value of one instrument *)
Definition store_greek (g : greek) (k : string) (b unit : f32) (ups : string -> option f32) (i : instrument) : act Datatypes.unit :=
  let* up := need (ups (code i)) in
  let* npv := npv_of (code i) in
  edit (code i) (set_greek g k (gmul (gmul (gdiv (gsub up npv) b) unit) (notional i))).
(** 1017-1089, 1100-1187, 1536-1591: one curve, volatility or dividend; the three
    loops differ in the selection, the bump and the unit *)
Definition greek_of (g : greek) (select : string -> rresult (list instrument)) (bump : string -> f32 -> act Datatypes.unit) (b unit : f32) (k : string) : act Datatypes.unit :=
  let* is := pure (Ret (select k)) in
  let* _ := set_action is in
  match is with
  | [] => done tt
  | _ =>
      let* _ := bump k b in
      let* ups := get_npvs in
      let* _ := each (store_greek g k b unit ups) is in
      bump k (gneg b)
  end.
(** 1008-1091: set_rho *)
Definition set_rho : act unit :=
  let* names := pure (Ret (all_curve_names (cx_match cx) (cx_insts cx))) in
  each (greek_of Rho (fun n => using_curve (cx_insts cx) n (cx_match cx) ["Stock"]%string) (fun n b => bump_curve n None None b) (cf_rho_bump (cx_config cx)) bp) names.
(** 1093-1189: set_vega *)
Definition set_vega : act unit :=
  each (greek_of Vega (fun u => ROk (with_underlying (cx_insts cx) u ["Futures"; "Stock"]%string)) (fun u b => bump_vol u None None None None b) (cf_vega_bump (cx_config cx)) pct)
    (all_underlyings (cx_insts cx)).
(** 1528-1593: set_div_delta *)
Definition set_div_delta : act unit :=
  each (greek_of DivDelta (fun u => ROk (with_underlying (cx_insts cx) u ["Stock"; "Cash"]%string)) (fun u b => bump_div u None None b) (cf_div_bump (cx_config cx)) bp)
    (all_underlyings (cx_insts cx)).

(** ** Ladders of rho and of dividends *)
(** 1782-1799, 1904-1922: the value of one instrument in rung [i] *)
Fixpoint rungs (i : nat) (b unit : f32) (ups : string -> option f32) (acc : string -> option (list f32)) (is : list instrument) : act (string -> option (list f32)) :=
  match is with
  | [] => done acc
  | x :: is' =>
      let* up := need (ups (code x)) in
      let* npv := npv_of (code x) in
      let* v := need (acc (code x)) in
      rungs i b unit ups (put acc (code x) (set_nth v i (gmul (gmul (gdiv (gsub up npv) b) unit) (notional x)))) is'
  end.
(** 1757-1822, 1884-1945: the rungs from [i]: [prev] is where the window of this
    one starts *)
Fixpoint climb {W} (bump : option W -> option W -> f32 -> act Datatypes.unit) (b unit : f32) (exclude : list string) (is : list instrument)
    (i : nat) (prev : option W) (ends : list (W * odt)) (acc : string -> option (list f32)) : act (string -> option (list f32)) :=
  match ends with
  | [] => done acc
  | (w, d) :: ends' =>
      let* _ := bump prev (Some w) b in
      let* ups := get_npvs in
      let* acc' := rungs i b unit ups acc is in
      let* _ := bump prev (Some w) (gneg b) in
      match maturing_over is d exclude with
      | [] => done acc'
      | _ => climb bump b unit exclude is (i + 1) (Some w) ends' acc'
      end
  end.
(** [codes.zip(vec![vec![0.0; n]; ..]).collect()] *)
Definition zeros (n : nat) (is : list instrument) : string -> option (list f32) := fold_left (fun m i => put m (code i) (repeat (gof_Z 0) n)) is (fun _ => None).
(** 1736-1835, 1865-1954: one curve or dividend *)
Definition ladder_of {W} (g : ladder) (select : string -> rresult (list instrument)) (bump : string -> option W -> option W -> f32 -> act Datatypes.unit) (b unit : f32)
    (exclude : list string) (ends : list (W * odt)) (k : string) : act Datatypes.unit :=
  let* is := pure (Ret (select k)) in
  let* _ := set_action is in
  match is with
  | [] => done tt
  | _ =>
      let* acc := climb (bump k) b unit exclude is 0 None ends (zeros (length ends) is) in
      each (fun i => let* v := need (acc (code i)) in edit (code i) (set_ladder g k v)) is
  end.
(** 1704-1837: set_rho_structure *)
Definition set_rho_structure : act unit :=
  let* s := get_state in
  let eval := w_date (mk_world (st_market s)) in
  let* names := pure (Ret (all_curve_names (cx_match cx) (cx_insts cx))) in
  let* dates := total (map_out (add_period eval) (cf_rho_tenors (cx_config cx))) in
  let* times := total (map_out (get_time_difference eval) dates) in
  each (ladder_of RhoLadder (fun n => using_curve (cx_insts cx) n (cx_match cx) ["Stock"; "Cash"]%string) bump_curve (cf_rho_bump (cx_config cx)) bp ["Stock"; "Cash"]%string (combine times dates)) names.
(** 1839-1956: set_div_structure *)
Definition set_div_structure : act unit :=
  let* s := get_state in
  let eval := w_date (mk_world (st_market s)) in
  let* dates := total (map_out (add_period eval) (cf_div_tenors (cx_config cx))) in
  each (ladder_of DivLadder (fun u => ROk (with_underlying (cx_insts cx) u ["Stock"; "Cash"]%string)) bump_div (cf_div_bump (cx_config cx)) bp ["Stock"; "Cash"]%string (combine dates dates))
    (cx_div_keys cx).

(** ** Vega by tenor, and by tenor and moneyness *)
(** 1205-1209, 1359-1364 *)
Definition vega_times (eval : odt) : outcome (list f32) := map_out (fun t => let! d := add_period eval t in get_time_difference eval d) (cf_vega_tenors (cx_config cx)).
(** 1224-1230, 1384-1390: 100_000_000.0 if there is none *)
Definition longest_time (eval : odt) (is : list instrument) : outcome f32 :=
  match longest_maturity is with Some m => get_time_difference eval m | None => Ret (gof_Z 100000000) end.
(** 1247-1267, 1404-1426: the npvs to start from *)
Fixpoint npv_map (acc : string -> option f32) (is : list instrument) : act (string -> option f32) :=
  match is with [] => done acc | i :: is' => let* x := npv_of (code i) in npv_map (put acc (code i) x) is' end.
(** [None] for the first, else the one before *)
Definition before (l : list f32) (i : nat) : outcome (option f32) := match i with O => Ret None | S j => let! x := at_ l j in Ret (Some x) end.
(** 1299-1313: the value of one instrument at one tenor *)
Fixpoint vega_rungs (i : nat) (b : f32) (ups prevs : string -> option f32) (acc : string -> option (list f32)) (is : list instrument) : act (string -> option (list f32)) :=
  match is with
  | [] => done acc
  | x :: is' =>
      let* up := need (ups (code x)) in
      let* npv := need (prevs (code x)) in
      let* v := need (acc (code x)) in
      vega_rungs i b ups prevs (put acc (code x) (set_nth v i (gmul (gmul (gdiv (gsub up npv) b) pct) (notional x)))) is'
  end.
Definition skips (longest : f32) (start : option f32) : bool := match start with Some t => o_lt fcmp longest t | None => false end.
(** 1269-1328: the tenors, from the last to the first *)
Fixpoint vega_down (u : string) (b longest : f32) (times : list f32) (is : list instrument) (order : list nat) (prevs : string -> option f32) (acc : string -> option (list f32)) : act unit :=
  match order with
  | [] => done tt
  | i :: order' =>
      let* start := total (before times i) in
      let* stop := total (at_ times i) in
      let* _ := bump_vol u start (Some stop) None None b in
      if skips longest start then vega_down u b longest times is order' prevs acc
      else
        let* ups := get_npvs in
        let* acc' := vega_rungs i b ups prevs acc is in
        let* _ := each (fun x => let* v := need (acc' (code x)) in edit (code x) (set_ladder VegaLadder u v)) is in
        vega_down u b longest times is order' ups acc'
  end.
(** 1220-1346: one underlying *)
Definition vega_structure_of (eval : odt) (b : f32) (times : list f32) (u : string) : act unit :=
  let is := with_underlying (cx_insts cx) u ["Cash"; "Stock"; "Futures"]%string in
  let* _ := set_action is in
  let* longest := total (longest_time eval is) in
  match is with
  | [] => done tt
  | _ =>
      let* prevs := npv_map (fun _ => None) is in
      let* _ := vega_down u b longest times is (rev (seq 0 (length times))) prevs (zeros (length times) is) in
      bump_vol u None None None None (gneg b)
  end.
(** 1197-1349: set_vega_structure *)
Definition set_vega_structure : act unit :=
  let* s := get_state in
  let eval := w_date (mk_world (st_market s)) in
  let* times := total (vega_times eval) in
  each (vega_structure_of eval (cf_vega_structure_bump (cx_config cx)) times) (all_underlyings (cx_insts cx)).

(** 1479-1493: one cell *)
Fixpoint cells (i j : nat) (b : f32) (ups prevs : string -> option f32) (acc : string -> option (list (list f32))) (is : list instrument) : act (string -> option (list (list f32))) :=
  match is with
  | [] => done acc
  | x :: is' =>
      let* up := need (ups (code x)) in
      let* npv := need (prevs (code x)) in
      let* v := need (acc (code x)) in
      let* row := total (at_ v i) in
      cells i j b ups prevs (put acc (code x) (set_nth v i (set_nth row j (gmul (gmul (gdiv (gsub up npv) b) pct) (notional x))))) is'
  end.
(** 1439-1507: the moneynesses of one tenor; [holders] are the codes that
    [single_vega_matrix] has so far *)
Fixpoint across (u : string) (b : f32) (money : list f32) (is : list instrument) (holders : list string) (i : nat) (start : option f32) (stop : f32) (order : list nat)
    (prevs : string -> option f32) (acc : string -> option (list (list f32))) : act ((string -> option f32) * (string -> option (list (list f32)))) :=
  match order with
  | [] => done (prevs, acc)
  | j :: order' =>
      let* l := total (before money j) in
      let* r := total (at_ money j) in
      let* _ := bump_vol u start (Some stop) l (Some r) b in
      let* ups := get_npvs in
      let* acc' := cells i j b ups prevs acc is in
      let* _ := each (fun k => let* v := need (acc' k) in edit k (set_matrix u v)) holders in
      across u b money is holders i start stop order' ups acc'
  end.
(** 1428-1508: the tenors, from the last; those that start after the longest
    maturity are left out *)
Fixpoint matrix_down (u : string) (b longest : f32) (times money : list f32) (is : list instrument) (holders : list string) (order : list nat)
    (prevs : string -> option f32) (acc : string -> option (list (list f32))) : act (string -> option (list (list f32))) :=
  match order with
  | [] => done acc
  | i :: order' =>
      let* start := total (before times i) in
      let* stop := total (at_ times i) in
      if skips longest start then matrix_down u b longest times money is holders order' prevs acc
      else
        let* r := across u b money is holders i start stop (seq 0 (length money)) prevs acc in
        matrix_down u b longest times money is holders order' (fst r) (snd r)
  end.
(** 1380-1524: the underlyings; [single_vega_matrix] is made once and kept from
    one to the next *)
Fixpoint matrix_all (eval : odt) (b : f32) (times money : list f32) (us : list string) (holders : list string) (acc : string -> option (list (list f32))) : act unit :=
  match us with
  | [] => done tt
  | u :: us' =>
      let is := with_underlying (cx_insts cx) u ["Cash"; "Stock"; "Futures"]%string in
      let* _ := set_action is in
      let* longest := total (longest_time eval is) in
      match is with
      | [] => matrix_all eval b times money us' holders acc
      | _ =>
          let acc0 := fold_left (fun m i => put m (code i) (repeat (repeat (gof_Z 0) (length money)) (length times))) is acc in
          let holders' := fold_left (push_new String.eqb) (map code is) holders in
          let* prevs := npv_map (fun _ => None) is in
          let* acc' := matrix_down u b longest times money is holders' (rev (seq 0 (length times))) prevs acc0 in
          let* _ := bump_vol u None None None None (gneg b) in
          matrix_all eval b times money us' holders' acc'
      end
  end.
(** 1351-1526: set_vega_matrix *)
Definition set_vega_matrix : act unit :=
  let* s := get_state in
  let eval := w_date (mk_world (st_market s)) in
  let* times := total (vega_times eval) in
  matrix_all eval (cf_vega_structure_bump (cx_config cx)) times (cf_moneyness (cx_config cx)) (all_underlyings (cx_insts cx)) [] (fun _ => None).

(** ** Theta *)
(** 1595-1612: preprocess_theta *)
Definition preprocess_theta : act unit := each (fun i => edit (code i) (set_theta (gof_Z 0))) (with_types (cx_insts cx) ["Cash"; "Stock"]%string).
(** 1673-1684: the cash flows between the two dates *)
Definition cash_between (from upto : odt) (l : list (odt * f32)) : f32 :=
  fold_left (fun s p => if (od_day from <? od_day (fst p)) && (od_day (fst p) <=? od_day upto) then gadd s (snd p) else s) l (gof_Z 0).
(** 1645-1691: theta of one instrument *)
Definition store_theta (from upto : odt) (diff : f32) (npvs ups : string -> option f32) (i : instrument) : act unit :=
  if has String.eqb (type_name i) ["Stock"; "Cash"]%string then done tt
  else
    let* c := result_of (code i) in
    let* npv := need (npvs (code i)) in
    let* up := need (ups (code i)) in
    let* flows := need (ca_cash c) in
    let sum := cash_between from upto (cx_cash cx flows) in
    edit (code i) (set_theta (gmul (gdiv (gdiv (gmul (gadd (gsub up npv) sum) (ca_unit c)) diff) (gof_Z 365)) (gof_Z 1))).
(** evaluation_date.rs 88-91 *)
Definition move_date (d : odt) : act unit :=
  let* s := get_state in
  let* w := total (set_date (mk_world (st_market s)) d) in
  set_market (with_world (st_market s) w).
(** 1617-1702: set_theta_for_given_instruments *)
Definition theta_for (is : list instrument) (d : odt) : act unit :=
  let* _ := set_action is in
  let* s := get_state in
  let original := w_date (mk_world (st_market s)) in
  let* diff := total (get_time_difference original d) in
  let* npvs := get_npvs in
  let* _ := move_date d in
  let* ups := get_npvs in
  let* _ := each (store_theta original d diff npvs ups) is in
  move_date original.
(** 2010-2067: the theta part of calculate *)
Definition set_thetas : act unit :=
  let* _ := preprocess_theta in
  let* s := get_state in
  let* d := total (add_days (w_date (mk_world (st_market s))) (cf_theta_day (cx_config cx))) in
  let near := maturing_upto (cx_insts cx) d ["Cash"; "Stock"]%string in
  let far := maturing_over (cx_insts cx) d ["Cash"; "Stock"]%string in
  let* _ := match near with
            | [] => done tt
            | _ => match shortest_maturity near with None => total Panic | Some m => theta_for near m end
            end in
  match far with [] => done tt | _ => theta_for far d end.

(** ** calculate: engine.rs 1958-2161 *)
Definition whenever (b : bool) (a : act unit) : act unit := if b then a else done tt.
Definition calculate : act unit :=
  let c := cx_config cx in
  let* _ := whenever (cf_npv c) (let* _ := set_npv_results in let* _ := set_values in set_cashflow_inbetween) in
  let* _ := whenever (cf_fx c) set_fx_exposures in
  let* _ := whenever (cf_delta c) (let* _ := preprocess_delta_gamma in set_delta_gamma) in
  let* _ := whenever (cf_theta c) set_thetas in
  let* _ := whenever (cf_vega c) set_vega in
  let* _ := whenever (cf_rho c) set_rho in
  let* _ := whenever (cf_div c) set_div_delta in
  let* _ := whenever (cf_vega_structure c) set_vega_structure in
  let* _ := whenever (cf_rho_structure c) set_rho_structure in
  let* _ := whenever (cf_div_structure c) set_div_structure in
  whenever (cf_vega_matrix c) set_vega_matrix.
End Engine.

(** ** with_instruments: 532-659.  [keys] is the order in which the map of the
    results will be iterated; it is an error if there is no instrument or one has
    matured *)
Definition with_instruments (m : market) (is : list instrument) : rresult state :=
  match is with
  | [] => RErr
  | _ =>
      match all_currencies is with
      | RErr => RErr
      | ROk _ =>
          match maturing_upto is (w_date (mk_world m)) [] with
          | [] => ROk (State m (fold_left (fun r i => put r (code i) (calc_new (notional i))) is (fun _ => None)) is)
          | _ => RErr
          end
      end
  end.
