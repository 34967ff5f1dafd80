(** QLoadModel.v -- an engine gets its market data (engine.rs 98-530) and its
    pricers (engine.rs 661-689, pricer_factory.rs).

    The data are functions from keys.  Messages, names and the currency of a price
    are left out.  Prices and dividends are shared objects: the maps give their
    places in the [world], the exchange rates first. *)
From Coq Require Import ZArith Ascii String.
From Coq Require Import List Bool.
From Flocq Require Import Core IEEE754.BinarySingleNaN.
From Verif Require Import Base FloatModel KrxModel QDateModel QInterpModel QDivModel QCurveModel QMoneyModel QBondModel QSwapModel QFutModel QInstModel QVolModel QEngModel.
Import ListNotations.
Open Scope Z_scope.

(** engine.rs 100-108: what is given *)
Record data : Type := Data { da_fx : fx_code -> option f32; da_stock : string -> option f32; da_curve : string -> option vector_data; da_div : string -> option vector_data;
  da_const_vol : string -> option f32; da_surface : string -> option surface_data; da_fx_vol : fx_code -> option f32; da_corr : string * fx_code -> option f32; da_past : string -> option closes }.
(** what the engine has afterwards (501-507) *)
Record loaded : Type := Loaded { ld_market : market; ld_fx : fx_code -> option nat; ld_quanto : string * fx_code -> option quanto; ld_past : string -> option closes }.

(** a map filled key by key, for keys without repetition *)
Fixpoint entry_at {K V} (eqb : K -> K -> bool) (l : list (K * V)) (k : K) : option V :=
  match l with [] => None | (k', v) :: l' => if eqb k k' then Some v else entry_at eqb l' k end.
(** the place of a key *)
Fixpoint place {K V} (eqb : K -> K -> bool) (l : list (K * V)) (k : K) : option nat :=
  match l with [] => None | (k', _) :: l' => if eqb k k' then Some O else option_map S (place eqb l' k) end.
(** a loop that makes one entry for each key *)
Definition entries {K V} (f : K -> outcome (rresult V)) (ks : list K) : outcome (rresult (list (K * V))) := map_res (fun k => let? v := f k in Ret (ROk (k, v))) ks.

Section Load.
Context (f_exp : f32 -> f32).
(** 169-176, 235-242: the curve of a name *)
Definition make_curve (eval : odt) (d : data) (n : string) : outcome (rresult curve) :=
  match da_curve d n with None => Ret RErr | Some v => curve_new f_exp eval v end.
(** 197-228: the dividend of an underlying that has data *)
Definition make_dividend (eval : odt) (d : data) (v : vector_data) (u : string) : outcome (rresult dividend) :=
  match da_stock d u with None => Ret RErr | Some spot => dividend_new eval v spot end.
(** 196-231: those without are skipped *)
Fixpoint make_dividends (eval : odt) (d : data) (us : list string) : outcome (rresult (list (string * dividend))) :=
  match us with
  | [] => Ret (ROk [])
  | u :: us' =>
      match da_div d u with
      | None => make_dividends eval d us'
      | Some v => let? x := make_dividend eval d v u in let? xs := make_dividends eval d us' in Ret (ROk ((u, x) :: xs))
      end
  end.
(** 263-281: a price and its dividend *)
Definition make_equity (eval : odt) (d : data) (divs : list (string * dividend)) (u : string) : outcome (rresult market_price) :=
  match da_stock d u with None => Ret RErr | Some v => Ret (ROk (MarketPrice v eval (place String.eqb divs u))) end.
(** 299-421: a surface, from the constant volatility if there is one, else from the
    market's *)
Definition make_vol (eval : odt) (d : data) (mp : match_parameter) (k : stickyness) (tenors : list (list ascii)) (money : list f32)
    (curves : string -> option curve) (prices : list (string * market_price)) (divs : list (string * dividend)) (u : string) : outcome (rresult vol_entry) :=
  match da_const_vol d u, da_surface d u with
  | None, None => Ret RErr
  | c, f =>
      match entry_at String.eqb prices u with
      | None => Ret RErr
      | Some p =>
          match mp_collateral mp u with
          | None => Ret RErr
          | Some nc =>
              match curves nc with
              | None => Ret RErr
              | Some cc =>
                  match mp_borrowing mp u with
                  | None => Ret RErr
                  | Some nb =>
                      match curves nb with
                      | None => Ret RErr
                      | Some cb =>
                          let e := VolEnv eval cc cb (mp_value p) (entry_at String.eqb divs u) in
                          let? s := match c, f with Some v, _ => with_constant_volatility e k v tenors money | None, Some v => with_market_surface e k v tenors money | None, None => Ret RErr end in
                          let? s' := vol_build e s in
                          Ret (ROk (VolEntry s' nc nb))
                      end
                  end
              end
          end
      end
  end.
(** 425-451: every pair needs the volatility of its rate *)
Definition make_fx_vol (d : data) (x : fx_code) : outcome (rresult f32) := match da_fx_vol d x with None => Ret RErr | Some v => Ret (ROk v) end.
(** 454-480: and its correlation *)
Definition make_quanto (d : data) (vols : list (fx_code * f32)) (p : string * fx_code) : outcome (rresult quanto) :=
  match da_corr d p with
  | None => Ret RErr
  | Some c => match entry_at fx_eqb vols (snd p) with None => Ret RErr | Some v => Ret (ROk (Quanto (constant_vol v) c)) end
  end.
(** 98-530: with_parameter_data.  The pairs of 425-429 come without repetition; a map
    is iterated in some order: [shuffle] is that of the observers (510-526) *)
Definition with_parameter_data (eval : odt) (d : data) (mp : match_parameter) (k : stickyness) (tenors : list (list ascii)) (money : list f32) (shuffle : list nat -> list nat) (is : list instrument) : outcome (rresult loaded) :=
  let? fxs := entries (fun x => Ret (market_fx (da_fx d) x)) (all_fx_codes is) in
  let? names := Ret (all_curve_names mp is) in
  let? curves1 := entries (make_curve eval d) names in
  let us := all_underlyings is in
  let? divs := make_dividends eval d us in
  let? curves2 := entries (make_curve eval d) us in
  let curves := fun n => match entry_at String.eqb curves2 n with Some c => Some c | None => entry_at String.eqb curves1 n end in
  let? prices := entries (make_equity eval d divs) us in
  let? vols := entries (make_vol eval d mp k tenors money curves prices divs) (all_vol_underlyings is) in
  let pairs := all_quanto_pairs is in
  let? fx_vols := entries (make_fx_vol d) (fold_left (push_new fx_eqb) (map snd pairs) []) in
  let? quantos := entries (make_quanto d fx_vols) pairs in
  let nfx := List.length fxs in
  Ret (ROk (Loaded
    (Market (World eval (map (fun x => MarketPrice (snd x) eval None) fxs ++ map snd prices) (map snd divs)
               (shuffle (seq 0 nfx) ++ shuffle (seq nfx (List.length prices))) (shuffle (seq 0 (List.length divs))))
       (fun u => option_map (Nat.add nfx) (place String.eqb prices u)) (place String.eqb divs) curves (entry_at String.eqb vols))
    (place fx_eqb fxs) (entry_at pair_eqb quantos) (da_past d))).
End Load.

(** ** pricer_factory.rs: what a pricer refers to *)
Inductive wiring : Type :=
| WBond (discount : string) (forward : option string) (fixings : option closes)
| WFutures (equity collateral borrowing : string)
| WOption (equity vol discount collateral borrowing : string) (q : option quanto)
| WKtbf (discount collateral : string)
| WFxFutures (rate : nat) (und_curve futures_curve : string)
| WSwap (fixed floating : string) (forward : option string) (fixings : option closes) (rate : option nat)
| WStock (equity : string)
| WCash.
(** [zero_curves.get(name).ok_or_else(..)?]: the name, if it is there *)
Definition curve_named (l : loaded) (n : string) : outcome (rresult string) := match mk_curve (ld_market l) n with None => Ret RErr | Some _ => Ret (ROk n) end.
Definition equity_named (l : loaded) (u : string) : outcome (rresult string) := match mk_equity (ld_market l) u with None => Ret RErr | Some _ => Ret (ROk u) end.
(** [v[0]] *)
Definition head {A} (l : list A) : outcome (rresult A) := match l with [] => Panic | x :: _ => Ret (ROk x) end.
(** 100-138, 363-392: the curve and the past fixings of the rate index, if any *)
Definition index_parts (l : loaded) (mp : match_parameter) (i : instrument) (x : option (string * string)) : outcome (rresult (option string * option closes)) :=
  match x with
  | None => Ret (ROk (None, None))
  | Some ix =>
      let? n := Ret (index_name mp i) in
      let? f := curve_named l n in
      match ld_past l (snd ix) with None => Ret RErr | Some p => Ret (ROk (Some f, Some p)) end
  end.
(** 83-146: get_bond_pricer *)
Definition bond_pricer (l : loaded) (mp : match_parameter) (i : instrument) : outcome (rresult wiring) :=
  let? n := Ret (discount_name mp i) in
  let? a := curve_named l n in
  let? x := Ret (rate_index i) in
  let? p := index_parts l mp i x in
  Ret (ROk (WBond a (fst p) (snd p))).
(** 147-180: get_futures_pricer *)
Definition futures_pricer (l : loaded) (mp : match_parameter) (i : instrument) : outcome (rresult wiring) :=
  let? u := head (underlyings i) in
  match mk_equity (ld_market l) u with
  | None => Panic
  | Some _ =>
      let? cs := Ret (collateral_names mp i) in
      let? c := head cs in
      let? bs := Ret (borrowing_names mp i) in
      let? b := head bs in
      let? c' := curve_named l c in
      let? b' := curve_named l b in
      Ret (ROk (WFutures u c' b'))
  end.
(** 182-278: get_vanilla_option_pricer; [analytic]: the method that is configured *)
Definition option_pricer (analytic : bool) (l : loaded) (mp : match_parameter) (i : instrument) : outcome (rresult wiring) :=
  let? u := head (underlyings i) in
  let? e := equity_named l u in
  match mk_vol (ld_market l) u with
  | None => Ret RErr
  | Some _ =>
      let? n := Ret (discount_name mp i) in
      let? a := curve_named l n in
      let? cs := Ret (collateral_names mp i) in
      let? c := head cs in
      let? c' := curve_named l c in
      let? bs := Ret (borrowing_names mp i) in
      let? b := head bs in
      let? b' := curve_named l b in
      let? uc := Ret (und_ccy i) in
      let? q := (if ccy_eqb uc (ccy i) then Ret (ROk None) else match ld_quanto l (u, FxCode uc (ccy i)) with None => Ret RErr | Some q => Ret (ROk (Some q)) end) in
      if analytic then Ret (ROk (WOption e u a c' b' q)) else Ret RErr
  end.
(** 280-311: get_ktbf_pricer *)
Definition ktbf_pricer (l : loaded) (mp : match_parameter) (i : instrument) : outcome (rresult wiring) :=
  let? a := curve_named l "KRWGOV" in
  let? cs := Ret (collateral_names mp i) in
  let? c := head cs in
  let? c' := curve_named l c in
  Ret (ROk (WKtbf a c')).
(** 313-349: get_fx_futures_pricer *)
Definition fx_futures_pricer (l : loaded) (mp : match_parameter) (i : instrument) (x : fx_code) : outcome (rresult wiring) :=
  match ld_fx l x with
  | None => Ret RErr
  | Some r =>
      let? n := Ret (float_crs_name mp i) in
      let? u := curve_named l n in
      let? n' := Ret (crs_name mp i) in
      let? f := curve_named l n' in
      Ret (ROk (WFxFutures r u f))
  end.
(** 351-425: get_plain_swap_pricer *)
Definition swap_pricer (l : loaded) (mp : match_parameter) (i : instrument) (fx : option fx_code) : outcome (rresult wiring) :=
  let? n := Ret (crs_name mp i) in
  let? a := curve_named l n in
  let? n' := Ret (float_crs_name mp i) in
  let? b := curve_named l n' in
  let? x := Ret (rate_index i) in
  let? p := index_parts l mp i x in
  let? r := match fx with None => Ret (ROk None) | Some x => match ld_fx l x with None => Ret RErr | Some r => Ret (ROk (Some r)) end end in
  Ret (ROk (WSwap a b (fst p) (snd p) r)).
(** 61-81, 427-450: create_pricer *)
Definition create_pricer (analytic : bool) (l : loaded) (mp : match_parameter) (i : instrument) : outcome (rresult wiring) :=
  match in_kind i with
  | KFutures _ _ => futures_pricer l mp i
  | KOption _ _ _ _ _ => option_pricer analytic l mp i
  | KBond _ _ _ _ => bond_pricer l mp i
  | KKtbf _ => ktbf_pricer l mp i
  | KFxFutures _ x => fx_futures_pricer l mp i x
  | KSwap _ _ _ x => swap_pricer l mp i x
  | KStock _ => let? e := equity_named l (code i) in Ret (ROk (WStock e))
  | KCash => Ret (ROk WCash)
  | KBondFutures => Ret RErr
  end.
(** engine.rs 661-689: initialize_pricers; the first error ends it *)
Definition initialize_pricers (analytic : bool) (l : loaded) (mp : match_parameter) (is : list instrument) : outcome (rresult (list (string * wiring))) :=
  map_res (fun i => let? w := create_pricer analytic l mp i in Ret (ROk (code i, w))) is.
