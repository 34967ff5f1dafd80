(** QGenModel.v -- quantlib/src/pricing_engines/engine_generator.rs: portfolios are split
    in groups, each group has an engine of its own, the engines run in parallel and
    put their reports in one map.

    [distribute_insts] (177-222) is in QInstModel.v.  The messages and the number of
    a group, which is only in messages, are left out. *)
From Coq Require Import ZArith Ascii String.
From Coq Require Import List Bool Relations Permutation.
From Flocq Require Import Core IEEE754.BinarySingleNaN.
From Verif Require Import Base FloatModel KrxModel QDateModel QInterpModel QDivModel QCurveModel QMoneyModel QBondModel QSwapModel QFutModel QInstModel QVolModel QEngModel QLoadModel.
Import ListNotations.
Open Scope Z_scope.

(** ** What a pricer reads: the fields of the pricers (futures_pricer.rs 15-20,
    option_analytic_pricer.rs 17-25, bond_pricer.rs 15-20, plain_swap_pricer.rs 13-20,
    fx_futures_pricer.rs 15-20, identity_pricer.rs 10-12, ktbf_pricer.rs), with what
    the shared objects hold in the market of the moment *)
Definition div_at (m : market) (j : option nat) : option dividend := match j with Some k => nth_error (w_dividends (mk_world m)) k | None => None end.
Definition price_view (p : market_price) (m : market) : f32 * odt * option dividend := (mp_value p, mp_dt p, div_at m (mp_div p)).
Definition equity_view (m : market) (u : string) : option (f32 * odt * option dividend) := option_map (fun p => price_view p m) (equity m u).
Definition rate_view (m : market) (j : nat) : option (f32 * odt * option dividend) := option_map (fun p => price_view p m) (nth_error (w_prices (mk_world m)) j).
Definition vol_view (m : market) (u : string) : option (surface * option vol_env) := option_map (fun v => (vt_surface v, env_of m u v)) (mk_vol m u).
Record view : Type := View { vw_date : odt; vw_curves : list (option curve); vw_equity : option (f32 * odt * option dividend); vw_vol : option (surface * option vol_env);
  vw_rate : option (f32 * odt * option dividend); vw_quanto : option quanto; vw_fixings : option closes }.
Definition opt_curve (m : market) (n : option string) : option curve := match n with Some x => mk_curve m x | None => None end.
Definition view_of (m : market) (w : wiring) : view :=
  let date := w_date (mk_world m) in
  match w with
  | WBond a f p => View date [mk_curve m a; opt_curve m f] None None None None p
  | WFutures e c b => View date [mk_curve m c; mk_curve m b] (equity_view m e) None None None None
  | WOption e v a c b q => View date [mk_curve m a; mk_curve m c; mk_curve m b] (equity_view m e) (vol_view m v) None q None
  | WKtbf a c => View date [mk_curve m a; mk_curve m c] None None None None None
  | WFxFutures r u f => View date [mk_curve m u; mk_curve m f] None None (rate_view m r) None None
  | WSwap a b f p r => View date [mk_curve m a; mk_curve m b; opt_curve m f] None None (match r with Some j => rate_view m j | None => None end) None p
  | WStock e => View date [] (equity_view m e) None None None None
  | WCash => View date [] None None None None None
  end.

(** how the pricers compute, from what they read and the instrument; each is
    deterministic *)
Record formulas : Type := Formulas { fo_npv : view -> instrument -> outcome (rresult f32); fo_result : view -> instrument -> outcome (rresult npv_result);
  fo_fx : view -> instrument -> f32 -> outcome (rresult (list (currency * f32))) }.
Definition pricer_of (fo : formulas) (w : wiring) : pricer := Pricer (fun m => fo_npv fo (view_of m w)) (fun m => fo_result fo (view_of m w)) (fun m => fo_fx fo (view_of m w)).

(** ** 74-88: what is the same for all groups *)
Record setup : Type := Setup { se_eval : odt; se_config : config; se_sticky : stickyness; se_analytic : bool; se_match : match_parameter; se_data : data; se_exp : f32 -> f32 }.
(** the orders in which one engine's hash maps are iterated *)
Record orders : Type := Orders { or_keys : list string; or_div_keys : list string; or_shuffle : list nat -> list nat; or_coupons : list (Z * (odt * f32)) -> list (Z * (odt * f32)); or_cash : list (odt * f32) -> list (odt * f32) }.
(** an engine before loading (engine.rs 71-95) *)
Definition no_market (eval : odt) : market := Market (World eval [] [] [] []) (fun _ => None) (fun _ => None) (fun _ => None) (fun _ => None).
(** engine.rs 661-689: later pricers of a code replace earlier ones *)
Definition pricer_map (fo : formulas) (ws : list (string * wiring)) : string -> option pricer := fold_left (fun m kw => put m (fst kw) (pricer_of fo (snd kw))) ws (fun _ => None).
(** engine_generator.rs 235-262: the engine of one group, to its reports *)
Definition group_run (fo : formulas) (se : setup) (o : orders) (is : list instrument) : outcome (rresult (string -> option calc)) :=
  let? s := Ret (with_instruments (no_market (se_eval se)) is) in
  let? l := with_parameter_data (se_exp se) (se_eval se) (se_data se) (se_match se) (se_sticky se) (cf_vega_tenors (se_config se)) (cf_moneyness (se_config se)) (or_shuffle o) is in
  let? ws := initialize_pricers (se_analytic se) l (se_match se) is in
  match calculate (Context is (pricer_map fo ws) (se_match se) (se_config se) (or_keys o) (or_div_keys o) (or_coupons o) (or_cash o) (se_exp se)) (State (ld_market l) (st_results s) (st_action s)) with
  | Ret (ROk _, s') => Ret (ROk (st_results s'))
  | Ret (RErr, _) => Ret RErr
  | Panic => Panic
  | Diverge => Diverge
  end.
(** a map is iterated in some order, each key once *)
Record orders_ok (se : setup) (is : list instrument) (o : orders) : Prop := {
  ok_keys : NoDup (or_keys o) /\ forall k, In k (or_keys o) <-> In k (map code is);
  ok_div_keys : NoDup (or_div_keys o) /\ forall u, In u (or_div_keys o) <-> (exists i, In i is /\ In u (underlyings i)) /\ da_div (se_data se) u <> None;
  ok_shuffle : forall l, Permutation (or_shuffle o l) l; ok_coupons : forall l, Permutation (or_coupons o l) l; ok_cash : forall l, Permutation (or_cash o l) l }.
(** what the closure of one group may return (234-270) *)
Definition may (fo : formulas) (se : setup) (is : list instrument) (r : rresult (string -> option calc)) : Prop := exists o, orders_ok se is o /\ group_run fo se o is = Ret r.

(** ** 74-93: the generator; what changes *)
Record generator : Type := Generator { ge_insts : list instrument; ge_groups : list (list instrument); ge_cats : list category; ge_results : string -> option calc }.
(** 97-127: builder *)
Definition gen_new : generator := Generator [] [] [] (fun _ => None).
(** 141-144: with_instruments *)
Definition gen_instruments (is : list instrument) (g : generator) : generator := Generator is (ge_groups g) (ge_cats g) (ge_results g).
(** 146-152: with_instrument_categories *)
Definition gen_categories (cs : list category) (g : generator) : generator := Generator (ge_insts g) (ge_groups g) cs (ge_results g).
(** 179-225: distribute_instruments; the groups are replaced only if it succeeds *)
Definition gen_distribute (g : generator) : rresult unit * generator :=
  match distribute_insts (ge_cats g) (ge_insts g) with ROk groups => (ROk tt, Generator (ge_insts g) groups (ge_cats g) (ge_results g)) | RErr => (RErr, g) end.

(** ** 228-285: calculate.  The closures run in any order and at the same time; each
    that succeeds puts its reports in the map while it holds the lock, so only the order
    of these moments matters.  The collected result (rayon's for Result) is an error as
    soon as one is; the closures not yet begun may then be left out.  A closure that
    panics makes the call panic: such runs are left out here *)
Section Calculate.
Context (outcome_of : list instrument -> rresult (string -> option calc) -> Prop).
Record work : Type := Work { wk_shared : string -> option calc; wk_left : list (list instrument); wk_failed : bool }.
(** 265-267: the reports of a group replace those of the same code *)
Definition merge (rs sh : string -> option calc) : string -> option calc := fun k => match rs k with Some c => Some c | None => sh k end.
Inductive gstep : work -> work -> Prop :=
| finish_ok : forall sh a is b e rs, outcome_of is (ROk rs) -> gstep (Work sh (a ++ is :: b) e) (Work (merge rs sh) (a ++ b) e)
| finish_err : forall sh a is b e, outcome_of is RErr -> gstep (Work sh (a ++ is :: b) e) (Work sh (a ++ b) true)
| leave_out : forall sh a is b, gstep (Work sh (a ++ is :: b) true) (Work sh (a ++ b) true).
(** 274-283: the results are taken over whether it succeeded or not *)
Definition calculates (g : generator) (r : rresult unit) (g' : generator) : Prop :=
  exists sh e, clos_refl_trans_1n work gstep (Work (fun _ => None) (ge_groups g) false) (Work sh [] e) /\ r = (if e then RErr else ROk tt) /\ g' = Generator (ge_insts g) (ge_groups g) (ge_cats g) sh.
End Calculate.
