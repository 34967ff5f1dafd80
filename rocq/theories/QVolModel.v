(** QVolModel.v -- the volatility surface
    (quantlib/src/parameters/volatilities/local_volatility_surface.rs,
    data/surface_data.rs).

    [evaluation_date], [market_price] and the two curves are shared references:
    here they are read from a [vol_env], so that a surface can be built again
    after any of them has changed.  [imvol_forward_vector] is written and never
    read, [lv_interpolator], [local_volatility] and the names are never read:
    left out.  A matrix is the list of its rows. *)
From Coq Require Import ZArith Ascii List Bool.
From Flocq Require Import Core IEEE754.BinarySingleNaN.
From Verif Require Import Base FloatModel KrxModel QDateModel QYearModel QPeriodModel QFindModel QInterpModel QDivModel QCurveModel QFutModel.
Import ListNotations.
Open Scope Z_scope.

(** data/surface_data.rs 8-17: SurfaceData; [sd_cols] columns in each row *)
Record surface_data : Type := SurfaceData { sd_spot : option f32; sd_value : list (list f32); sd_cols : nat; sd_dates : list odt; sd_strikes : list f32 }.
(** enums.rs 87-91: StickynessType *)
Inductive stickyness : Type := StickyToMoneyness | StickyToStrike.
(** local_volatility_surface.rs 31-34: what the surface refers to: the evaluation
    date, the curves, the market price and its dividend *)
Record vol_env : Type := VolEnv { ve_eval : odt; ve_coll : curve; ve_borrow : curve; ve_price : f32; ve_div : option dividend }.
(** 21-43: LocalVolatilitySurface *)
Record surface : Type := Surface { su_grid : list (list f32); su_dates : list odt; su_times : list f32; su_money : list f32; su_spot : f32;
  su_interp : bilinear; su_sticky : stickyness }.
(** bilinear_interpolator.rs 19-28: BilinearInterpolator::default *)
Definition no_bilinear : bilinear := Bilinear [] [] false XFlat.
(** 48-79: initialize *)
Definition vol_initialize (k : stickyness) : surface := Surface [] [] [] [] (gof_Z 0) no_bilinear k.
(** 305-357: get_forward; as written it is the forward of the futures pricer
    (futures_pricer.rs 37-64): the same factors in the same order *)
Definition vol_forward (e : vol_env) (spot : f32) (date : odt) : outcome (rresult f32) :=
  fair_forward (ve_eval e) (ve_coll e) (ve_borrow e) spot (ve_div e) date.
(** [v.windows(2).all(p)] *)
Fixpoint windows {A} (p : A -> A -> bool) (l : list A) : bool :=
  match l with a :: ((b :: _) as l') => p a b && windows p l' | _ => true end.
(** 81-198: with_market_surface *)
Definition with_market_surface (e : vol_env) (k : stickyness) (d : surface_data) (tenors : list (list ascii)) (money : list f32) : outcome (rresult surface) :=
  let eval := ve_eval e in
  if negb (windows (fun a b => negb (instant b <? instant a)) (sd_dates d)) then Ret RErr
  else if existsb (fun x => instant x <? instant eval) (sd_dates d) then Ret RErr
  else
    let! given_times := map_out (get_time_difference eval) (sd_dates d) in
    match sd_spot d with
    | None => Ret RErr
    | Some spot =>
        let? _ := map_res (vol_forward e spot) (sd_dates d) in
        let given_money := map (fun s => gdiv s spot) (sd_strikes d) in
        let? market := bilinear_rect given_times given_money (sd_value d) (sd_cols d) true XFlat true XFlat in
        let! dates := map_out (add_period eval) tenors in
        if negb (windows (fun a b => instant a <=? instant b) dates) then Ret RErr
        else
          let! times := map_out (fun t => let! x := add_period eval t in get_time_difference eval x) tenors in
          if negb (windows (o_le fcmp) times) then Ret RErr
          else
            let? grid := map_res (fun t => map_res (fun x => bilinear_interpolate market t x) money) times in
            Ret (ROk (Surface grid dates times money spot no_bilinear k))
    end.
(** 200-233: with_constant_volatility *)
Definition with_constant_volatility (e : vol_env) (k : stickyness) (vol : f32) (tenors : list (list ascii)) (money : list f32) : outcome (rresult surface) :=
  let! dates := map_out (add_period (ve_eval e)) tenors in
  let! times := map_out (get_time_difference (ve_eval e)) dates in
  Ret (ROk (Surface (repeat (repeat vol (length money)) (length times)) dates times money (ve_price e) no_bilinear k)).
(** 266-270: the moneyness of one row against its forward *)
Definition forward_money (money : list f32) (spot fwd : f32) : list f32 := map (fun m => gdiv (gmul m spot) fwd) money.
(** 235-303: build.  After an error the surface keeps its old interpolator; that
    state is not returned here. *)
Definition vol_build (e : vol_env) (s : surface) : outcome (rresult surface) :=
  let spot := match su_sticky s with StickyToMoneyness => su_spot s | StickyToStrike => ve_price e end in
  let? fwds := map_res (vol_forward e spot) (su_dates s) in
  let? interps := map_res2 (fun f row => linear_new (forward_money (su_money s) (su_spot s) f) row XFlat true) fwds (su_grid s) in
  let? b := bilinear_new (su_times s) interps true XFlat in
  Ret (ROk (Surface (su_grid s) (su_dates s) (su_times s) (su_money s) (su_spot s) b (su_sticky s))).
(** what 374-376 hands to [expect], 392-406, 412-426 to [?] *)
Definition vol_at (s : surface) (t x : f32) : outcome (rresult f32) := bilinear_interpolate (su_interp s) t x.
(** 373-377: get_value *)
Definition surface_value (s : surface) (t x : f32) : outcome f32 :=
  let! r := vol_at s t x in match r with ROk v => Ret v | RErr => Panic end.
(** 391-409: total_variance *)
Definition surface_variance (s : surface) (t x : f32) : outcome (rresult f32) := let? iv := vol_at s t x in Ret (ROk (gmul (gmul iv iv) t)).
(** 411-429: total_deviation *)
Definition surface_deviation (s : surface) (t x : f32) : outcome (rresult f32) := let? iv := vol_at s t x in Ret (ROk (gmul iv (gsqrt t))).

(** ** 433-465: bump_volatility *)
(** the literals 1.0e-4, f32::MIN, f32::MAX and 10.0 *)
Definition vol_eps : f32 := gdiv (gof_Z 1) (gof_Z 10000).
Definition f32_max : f32 := gof_Z (2 ^ 128 - 2 ^ 104).
Definition f32_min : f32 := gneg f32_max.
(** [unwrap_or(MIN + 10.0)], [unwrap_or(MAX - 10.0)] *)
Definition from_or (x : option f32) : f32 := match x with Some v => v | None => gadd f32_min (gof_Z 10) end.
Definition to_or (x : option f32) : f32 := match x with Some v => v | None => gsub f32_max (gof_Z 10) end.
(** [from + eps < x && x <= to + eps] *)
Definition in_window (from to x : f32) : bool := glt (gadd from vol_eps) x && gle x (gadd to vol_eps).
(** 447-461: the loops over the matrix *)
Definition bump_grid (time1 time2 l r : option f32) (bump : f32) (times money : list f32) (grid : list (list f32)) : list (list f32) :=
  map (fun p => if in_window (from_or time1) (to_or time2) (fst p)
                then map (fun q => if in_window (from_or l) (to_or r) (fst q) then gadd (snd q) bump else snd q) (combine money (snd p))
                else snd p) (combine times grid).
Definition bump_surface (e : vol_env) (time1 time2 l r : option f32) (bump : f32) (s : surface) : outcome (rresult surface) :=
  vol_build e (Surface (bump_grid time1 time2 l r bump (su_times s) (su_money s) (su_grid s)) (su_dates s) (su_times s) (su_money s) (su_spot s) (su_interp s) (su_sticky s)).

(** ** parameters/volatility.rs 37-120: Volatility, as the option pricer sees it;
    get_value panics if the interpolation fails, which [vol_value] does not say:
    a surface that was built never fails (C176) *)
Definition surface_vol (s : surface) : volatility :=
  Vol (fun t x => match vol_at s t x with Ret (ROk v) => v | _ => B754_nan end) (surface_variance s) (surface_deviation s).
