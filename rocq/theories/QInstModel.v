(** QInstModel.v -- what a portfolio says about its instruments
    (quantlib/src/instrument.rs, the [InstrumentTrait] parts of
    instruments/*.rs), which curve an instrument uses
    (pricing_engines/match_parameter.rs), rates of exchange
    (pricing_engines/engine.rs 108-160) and the distribution of instruments over
    engines (pricing_engines/engine_generator.rs).

    Maps that are only read are functions to [option]. *)
From Coq Require Import ZArith String List Bool.
From Verif Require Import Base FloatModel KrxModel QDateModel QMoneyModel QSwapModel QFutModel.
Import ListNotations.
Open Scope Z_scope.

(** ** instrument.rs 235-246: Instrument.  Of each kind only what these files
    ask for.  A rate index is its code and name.  Stock and VanillaOption answer
    [vec![&underlying_codes[0]]] (stock.rs 56-58, vanilla_option.rs 130-132,
    153-155); here they carry that first code, so the panic for an empty vector
    is not modelled. *)
Inductive kind : Type :=
| KFutures (unds : list string) (und_ccy : currency)
| KBond (issuer : string) (issuer_type rating : Z) (index : option (string * string))
| KBondFutures
| KKtbf (tag : string)
| KSwap (t : swap_type) (float_ccy : currency) (index : option (string * string)) (fx : option fx_code)
| KFxFutures (und_ccy : currency) (fx : fx_code)
| KOption (k : option_type) (und : string) (und_ccy : currency) (settled : bool) (quanto_fx : option fx_code)
| KStock (und : string)
| KCash.
(** name, code, currency, unit notional, maturity, and the rest.  The currency of
    a swap is that of its fixed leg (plain_swap.rs 559-561). *)
Record instrument : Type := Inst { in_name : string; in_code_field : string; in_ccy : currency; in_notional : f32; in_maturity : odt; in_kind : kind }.

(** plain_swap.rs 25-33: PlainSwapType::as_str *)
Definition swap_name (t : swap_type) : string :=
  match t with IRS => "IRS" | CRS => "CRS" | FxSwap => "FxSwap" | FxForward => "FxForward" | FxSpot => "FxSpot" end.
(** get_type_name: futures.rs 97-99, bond.rs 258-260, bond_futures.rs 18-20,
    ktbf.rs 123-125, plain_swap.rs 575-578, fx_futures.rs 78-80,
    vanilla_option.rs 104-109, stock.rs 48-50, cash.rs 40-42 *)
Definition type_name (i : instrument) : string :=
  match in_kind i with
  | KFutures _ _ => "Futures" | KBond _ _ _ _ => "Bond" | KBondFutures => "BondFutures" | KKtbf _ => "KTBF"
  | KSwap t _ _ _ => swap_name t | KFxFutures _ _ => "FxFutures"
  | KOption Call _ _ _ _ => "VanillaCall" | KOption Put _ _ _ _ => "VanillaPut" | KStock _ => "Stock" | KCash => "Cash"
  end.
(** get_code: the field, but cash.rs 32-34 gives the name *)
Definition code (i : instrument) : string := match in_kind i with KCash => in_name i | _ => in_code_field i end.
(** get_currency *)
Definition ccy (i : instrument) : currency := in_ccy i.
(** get_unit_notional: the field; 1 for a stock (stock.rs 52-54) and cash
    (cash.rs 29-31) *)
Definition notional (i : instrument) : f32 := match in_kind i with KStock _ | KCash => gof_Z 1 | _ => in_notional i end.
(** get_maturity: instrument.rs 53-55 (none) for stock and cash *)
Definition maturity (i : instrument) : option odt := match in_kind i with KStock _ | KCash => None | _ => Some (in_maturity i) end.
(** get_underlying_codes: instrument.rs 58-60 (none), futures.rs 101-104,
    vanilla_option.rs 130-132, stock.rs 56-58 *)
Definition underlyings (i : instrument) : list string :=
  match in_kind i with KFutures us _ => us | KOption _ u _ _ _ => [u] | KStock u => [u] | _ => [] end.
(** get_underlying_codes_requiring_volatility: 70-72, vanilla_option.rs 153-155 *)
Definition vol_underlyings (i : instrument) : list string := match in_kind i with KOption _ u _ _ _ => [u] | _ => [] end.
(** get_all_fxcodes_for_pricing: 66-68, fx_futures.rs 110-112, plain_swap.rs 596-602 *)
Definition fx_codes (i : instrument) : list fx_code :=
  match in_kind i with KFxFutures _ x => [x] | KSwap _ _ _ (Some x) => [x] | _ => [] end.
(** get_quanto_fxcode_und_pair: 62-64, vanilla_option.rs 146-151 *)
Definition quanto_pairs (i : instrument) : list (string * fx_code) := match in_kind i with KOption _ u _ _ (Some x) => [(u, x)] | _ => [] end.
(** get_underlying_currency: 201-205 (an error), futures.rs 85-87,
    fx_futures.rs 90-92, vanilla_option.rs 122-124 *)
Definition und_ccy (i : instrument) : rresult currency :=
  match in_kind i with KFutures _ c => ROk c | KFxFutures c _ => ROk c | KOption _ _ c _ _ => ROk c | _ => RErr end.
(** get_floating_leg_currency: 195-199 (an error), plain_swap.rs 584-586 *)
Definition float_ccy (i : instrument) : rresult currency := match in_kind i with KSwap _ c _ _ => ROk c | _ => RErr end.
(** get_rate_index: 105-111 (an error), bond.rs 262-264, plain_swap.rs 571-573 *)
Definition rate_index (i : instrument) : rresult (option (string * string)) :=
  match in_kind i with KBond _ _ _ x => ROk x | KSwap _ _ x _ => ROk x | _ => RErr end.
(** get_bond_futures_borrowing_curve_tags: 113-115, ktbf.rs 155-157 *)
Definition borrow_tags (i : instrument) : list string := match in_kind i with KKtbf t => [t] | _ => [] end.

(** ** lists without repetition *)
(** [v.contains(x)] *)
Fixpoint has {A} (eqb : A -> A -> bool) (x : A) (l : list A) : bool :=
  match l with [] => false | y :: l' => eqb x y || has eqb x l' end.
(** [if !v.contains(x) { v.push(x) }] *)
Definition push_new {A} (eqb : A -> A -> bool) (l : list A) (x : A) : list A := if has eqb x l then l else l ++ [x].
(** the same for each of [xs] *)
Definition push_all {A} (eqb : A -> A -> bool) (l xs : list A) : list A := fold_left (push_new eqb) xs l.
Definition fx_eqb (a b : fx_code) : bool := ccy_eqb (fx_one a) (fx_one b) && ccy_eqb (fx_two a) (fx_two b).

(** ** instrument.rs 255-735: Instruments *)
(** 292-304: get_all_underlying_codes *)
Definition all_underlyings (is : list instrument) : list string := fold_left (fun l i => push_all String.eqb l (underlyings i)) is [].
(** 306-317: get_all_fxcodes_for_pricing *)
Definition all_fx_codes (is : list instrument) : list fx_code := fold_left (fun l i => push_all fx_eqb l (fx_codes i)) is [].
(** 319-328: get_all_quanto_fxcode_und_pairs; a set, here a list in the order of
    insertion *)
Definition pair_eqb (a b : string * fx_code) : bool := String.eqb (fst a) (fst b) && fx_eqb (snd a) (snd b).
Definition all_quanto_pairs (is : list instrument) : list (string * fx_code) := fold_left (fun l i => push_all pair_eqb l (quanto_pairs i)) is [].
(** 330-339: get_all_type_names *)
Definition all_type_names (is : list instrument) : list string := fold_left (fun l i => push_new String.eqb l (type_name i)) is [].
(** 709-735: get_all_unerlying_codes_requiring_volatility *)
Definition all_vol_underlyings (is : list instrument) : list string := fold_left (fun l i => push_all String.eqb l (vol_underlyings i)) is [].
(** 341-382: get_all_currencies *)
Fixpoint currencies_from (l : list currency) (is : list instrument) : rresult (list currency) :=
  match is with
  | [] => ROk l
  | i :: is' =>
      let l1 := push_new ccy_eqb l (ccy i) in
      if String.eqb (type_name i) "Futures" || String.eqb (type_name i) "FxFutures" then
        match und_ccy i with ROk c => currencies_from (push_new ccy_eqb l1 c) is' | RErr => RErr end
      else if String.eqb (type_name i) "PlainSwap" then
        match float_ccy i with ROk c => currencies_from (push_new ccy_eqb l1 c) is' | RErr => RErr end
      else currencies_from l1 is'
  end.
Definition all_currencies (is : list instrument) : rresult (list currency) := currencies_from [] is.

(** 384-400: instruments_with_underlying *)
Definition with_underlying (is : list instrument) (u : string) (exclude : list string) : list instrument :=
  filter (fun i => has String.eqb u (underlyings i) && negb (has String.eqb (type_name i) exclude)) is.
(** 402-410: instruments_with_currency *)
Definition with_currency (is : list instrument) (c : currency) : list instrument := filter (fun i => ccy_eqb (ccy i) c) is.
(** 412-421: instruments_with_types *)
Definition with_types (is : list instrument) (ts : list string) : list instrument := filter (fun i => has String.eqb (type_name i) ts) is.
(** 507-546: instruments_with_maturity_upto (the two arms of the match differ
    only in the list they go through) *)
Definition maturing_upto (is : list instrument) (d : odt) (exclude : list string) : list instrument :=
  filter (fun i => negb (has String.eqb (type_name i) exclude) && match maturity i with Some m => instant m <=? instant d | None => false end) is.
(** 548-597: instruments_with_maturity_over *)
Definition maturing_over (is : list instrument) (d : odt) (exclude : list string) : list instrument :=
  filter (fun i => negb (has String.eqb (type_name i) exclude) && match maturity i with Some m => instant d <? instant m | None => true end) is.
(** 599-631: get_shortest_maturity *)
Fixpoint shortest_from (acc : option odt) (is : list instrument) : option odt :=
  match is with
  | [] => acc
  | i :: is' =>
      shortest_from (match maturity i with
                     | Some m => match acc with Some s => if instant m <? instant s then Some m else acc | None => Some m end
                     | None => acc end) is'
  end.
Definition shortest_maturity (is : list instrument) : option odt := shortest_from None is.
(** 633-683: get_longest_maturity *)
Fixpoint longest_from (acc : option odt) (is : list instrument) : option odt :=
  match is with
  | [] => acc
  | i :: is' =>
      match maturity i with
      | Some m => longest_from (match acc with Some s => if instant s <? instant m then Some m else acc | None => Some m end) is'
      | None => None
      end
  end.
Definition longest_maturity (is : list instrument) : option odt := longest_from None is.

(** ** pricing_engines/match_parameter.rs 15-36: MatchParameter *)
Record match_parameter : Type := MatchParameter {
  mp_collateral : string -> option string; mp_borrowing : string -> option string;
  mp_bond : string * Z * Z * currency -> option string; mp_index : string -> option string;
  mp_crs : currency -> option string; mp_funding : currency -> option string }.
(** 58, 79: dummy_string *)
Definition dummy : string := "Dummy".
Definition found {A} (o : option A) : rresult A := match o with Some x => ROk x | None => RErr end.
(** 83-113: get_crs_curve_name *)
Definition crs_name (m : match_parameter) (i : instrument) : rresult string :=
  match in_kind i with
  | KSwap IRS _ _ _ => ROk dummy
  | KSwap _ _ _ _ => found (mp_crs m (in_ccy i))
  | KFxFutures _ _ => found (mp_crs m (in_ccy i))
  | _ => ROk dummy
  end.
(** 115-146: get_floating_crs_curve_name *)
Definition float_crs_name (m : match_parameter) (i : instrument) : rresult string :=
  match in_kind i with
  | KSwap IRS _ _ _ => ROk dummy
  | KSwap _ c _ _ => found (mp_crs m c)
  | KFxFutures c _ => found (mp_crs m c)
  | _ => ROk dummy
  end.
(** 147-236: get_discount_curve_name *)
Definition discount_name (m : match_parameter) (i : instrument) : rresult string :=
  match in_kind i with
  | KBond issuer t r _ => match mp_bond m (issuer, t, r, in_ccy i) with Some n => ROk n | None => ROk dummy end
  | KSwap _ _ x _ => match x with None => ROk dummy | Some ix => found (mp_index m (fst ix)) end
  | KOption _ _ _ settled _ => if settled then ROk dummy else found (mp_funding m (in_ccy i))
  | _ => ROk dummy
  end.
(** [iter().map(..).collect::<Result<Vec<_>>>()]: the first error *)
Fixpoint collect {A B} (f : A -> rresult B) (l : list A) : rresult (list B) :=
  match l with [] => ROk [] | x :: l' => match f x with RErr => RErr | ROk y => match collect f l' with RErr => RErr | ROk ys => ROk (y :: ys) end end end.
(** 239-249: get_collateral_curve_names *)
Definition collateral_names (m : match_parameter) (i : instrument) : rresult (list string) := collect (fun u => found (mp_collateral m u)) (underlyings i).
(** 264-280: get_borrowing_curve_names *)
Definition borrowing_names (m : match_parameter) (i : instrument) : rresult (list string) :=
  collect (fun u => found (mp_borrowing m u)) (underlyings i ++ borrow_tags i).
(** 282-317: get_rate_index_curve_name *)
Definition index_name (m : match_parameter) (i : instrument) : rresult string :=
  match in_kind i with
  | KBond _ _ _ x | KSwap _ _ x _ => match x with None => ROk dummy | Some ix => found (mp_index m (fst ix)) end
  | _ => ROk dummy
  end.

(** instrument.rs 423-462: instruments_using_curve; the same instrument is pushed
    once for each of its uses *)
Fixpoint using_curve (is : list instrument) (n : string) (m : match_parameter) (exclude : list string) : rresult (list instrument) :=
  match is with
  | [] => ROk []
  | i :: is' =>
      if has String.eqb (type_name i) exclude then using_curve is' n m exclude
      else
        match discount_name m i, collateral_names m i, index_name m i, crs_name m i, float_crs_name m i with
        | ROk a, ROk bs, ROk c, ROk d, ROk e =>
            match using_curve is' n m exclude with
            | RErr => RErr
            | ROk rest =>
                ROk ((if String.eqb a n then [i] else []) ++ (if has String.eqb n bs then [i] else []) ++ (if String.eqb c n then [i] else [])
                     ++ (if String.eqb d n then [i] else []) ++ (if String.eqb e n then [i] else []) ++ rest)
            end
        | _, _, _, _, _ => RErr
        end
  end.
(** [if !res.contains(&n) && n != &dummy { res.push(n) }] *)
Definition push_name (l : list string) (n : string) : list string := if has String.eqb n l then l else if String.eqb n dummy then l else l ++ [n].
(** 465-505: get_all_curve_names *)
Fixpoint curve_names_from (l : list string) (m : match_parameter) (is : list instrument) : rresult (list string) :=
  match is with
  | [] => ROk l
  | i :: is' =>
      match discount_name m i, collateral_names m i, index_name m i, crs_name m i, float_crs_name m i with
      | ROk a, ROk bs, ROk c, ROk d, ROk e => curve_names_from (push_name (push_name (push_name (fold_left push_name bs (push_name l a)) c) d) e) m is'
      | _, _, _, _, _ => RErr
      end
  end.
Definition all_curve_names (m : match_parameter) (is : list instrument) : rresult (list string) := curve_names_from [] m is.

(** ** pricing_engines/engine.rs 108-160: the rate of exchange for a pair *)
Definition market_fx (data : fx_code -> option f32) (x : fx_code) : rresult f32 :=
  match data x with
  | Some v => ROk v
  | None =>
      match data (fx_reciprocal x) with
      | Some v => ROk (gdiv (gof_Z 1) v)
      | None =>
          match data (FxCode (fx_one x) Ccy_KRW), data (FxCode (fx_two x) Ccy_KRW) with
          | Some v1, Some v2 => ROk (gdiv v1 v2)
          | _, _ => RErr
          end
      end
  end.

(** ** pricing_engines/engine_generator.rs 23-28: InstrumentCategory *)
Record category : Type := Category { ca_types : option (list string); ca_ccys : option (list currency); ca_unds : option (list string) }.
Fixpoint same_strings (a b : list string) : bool :=
  match a, b with [], [] => true | x :: a', y :: b' => String.eqb x y && same_strings a' b' | _, _ => false end.
(** 43-72: contains *)
Definition in_category (g : category) (i : instrument) : bool :=
  match ca_types g with Some ts => has String.eqb (type_name i) ts | None => true end
  && match ca_ccys g with Some cs => has ccy_eqb (ccy i) cs | None => true end
  && match ca_unds g with Some us => (match underlyings i with [] => true | _ => false end) || same_strings us (underlyings i) | None => true end.
(** 183-191: one category takes what no earlier one took; the instruments come
    with their flag [distribution_checker] *)
Fixpoint take_for (g : category) (is : list (bool * instrument)) : list instrument * list (bool * instrument) :=
  match is with
  | [] => ([], [])
  | (taken, i) :: is' =>
      let r := take_for g is' in
      if negb taken && in_category g i then (i :: fst r, (true, i) :: snd r) else (fst r, (taken, i) :: snd r)
  end.
Fixpoint distribute_from (gs : list category) (is : list (bool * instrument)) : list (list instrument) * list (bool * instrument) :=
  match gs with
  | [] => ([], is)
  | g :: gs' =>
      let t := take_for g is in
      let r := distribute_from gs' (snd t) in
      ((match fst t with [] => [] | _ => [fst t] end) ++ fst r, snd r)
  end.
(** 177-222: distribute_instruments *)
Definition distribute_insts (gs : list category) (is : list instrument) : rresult (list (list instrument)) :=
  let r := distribute_from gs (map (fun i => (false, i)) is) in
  if forallb fst (snd r) then ROk (fst r) else RErr.
