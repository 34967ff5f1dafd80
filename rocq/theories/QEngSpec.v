(** QEngSpec.v -- vocabulary for the statements about the engine. *)
From Coq Require Import ZArith Ascii String List Bool Sorting.Sorted.
From Verif Require Import Base FloatModel KrxModel QDateModel QYearModel QFindModel QInterpModel QDivModel QCurveModel QMoneyModel QBondModel QFutModel QInstModel QVolModel QEngModel.
Import ListNotations.
Open Scope Z_scope.

(** the method succeeds *)
Definition runs (a : act unit) (s s' : state) : Prop := a s = Ret (ROk tt, s').
(** the pricer of [i] gives the price [x] in the market [m] *)
Definition priced (cx : context) (m : market) (i : instrument) (x : f32) : Prop := exists p, cx_pricer cx (code i) = Some p /\ pr_npv p m i = Ret (ROk x).
(** it gives the result [r] *)
Definition priced_result (cx : context) (m : market) (i : instrument) (r : npv_result) : Prop := exists p, cx_pricer cx (code i) = Some p /\ pr_result p m i = Ret (ROk r).
(** what is reported for [i] *)
Definition reported (s : state) (i : instrument) (P : calc -> Prop) : Prop := exists c, st_results s (code i) = Some c /\ P c.
Definition reported_npv (s : state) (i : instrument) (x : f32) : Prop := reported s i (fun c => exists r, ca_npv c = Some r /\ nr_npv r = x).
Definition reported_greek (s : state) (i : instrument) (g : greek) (k : string) (v : f32) : Prop := reported s i (fun c => ca_greek c g k = Some v).

(** one code, one instrument *)
Definition coded (is : list instrument) : Prop := forall i j, In i is -> In j is -> code i = code j -> i = j.

(** what a report has besides the unit *)
Inductive cell : Type := NpvCell | ValueCell | FxCell | GreekCell (g : greek) (k : string) | LadderCell (g : ladder) (k : string) | MatrixCell (k : string) | ThetaCell | CashCell.
Definition same_at (c c' : calc) (x : cell) : Prop :=
  match x with
  | NpvCell => ca_npv c' = ca_npv c
  | ValueCell => ca_value c' = ca_value c
  | FxCell => ca_fx c' = ca_fx c
  | GreekCell g k => ca_greek c' g k = ca_greek c g k
  | LadderCell g k => ca_ladder c' g k = ca_ladder c g k
  | MatrixCell k => ca_matrix c' k = ca_matrix c k
  | ThetaCell => ca_theta c' = ca_theta c
  | CashCell => ca_cash c' = ca_cash c
  end.
(** nothing in the reports has changed except perhaps the cells [P] *)
Definition only (P : string -> cell -> Prop) (s s' : state) : Prop :=
  forall k, match st_results s k, st_results s' k with
            | Some c, Some c' => ca_unit c' = ca_unit c /\ forall x, ~ P k x -> same_at c c' x
            | None, None => True
            | _, _ => False
            end.

(** the price of [u] is [x], all else is as in [m] *)
Definition price_set (m : market) (u : string) (x : f32) (m' : market) : Prop :=
  exists k p, mk_equity m u = Some k /\ nth_error (w_prices (mk_world m)) k = Some p /\
    (forall j, nth_error (w_prices (mk_world m')) j = if Nat.eqb j k then Some (MarketPrice x (mp_dt p) (mp_div p)) else nth_error (w_prices (mk_world m)) j) /\
    w_date (mk_world m') = w_date (mk_world m) /\ w_dividends (mk_world m') = w_dividends (mk_world m) /\ w_pobs (mk_world m') = w_pobs (mk_world m) /\ w_dobs (mk_world m') = w_dobs (mk_world m) /\
    mk_equity m' = mk_equity m /\ mk_dividend m' = mk_dividend m /\ mk_curve m' = mk_curve m /\ mk_vol m' = mk_vol m.

(** the change of the price for a bump [b], for a move of [unit] and [n] units of
    the instrument *)
Definition slope (up npv b unit n : f32) : f32 := gmul (gmul (gdiv (gsub up npv) b) unit) n.

(** ** Bumped markets: one thing is bumped, all else is as it was *)
Definition curve_bumped (f_exp : f32 -> f32) (n : string) (t1 t2 : option f32) (b : f32) (m m' : market) : Prop :=
  exists c c', mk_curve m n = Some c /\ bump_times f_exp c t1 t2 b = Ret (ROk tt, c') /\ (forall x, mk_curve m' x = if String.eqb x n then Some c' else mk_curve m x) /\
    mk_world m' = mk_world m /\ mk_equity m' = mk_equity m /\ mk_dividend m' = mk_dividend m /\ mk_vol m' = mk_vol m.
Definition vol_bumped (u : string) (t1 t2 l r : option f32) (b : f32) (m m' : market) : Prop :=
  exists v e o, mk_vol m u = Some v /\ env_of m u v = Some e /\ bump_surface e t1 t2 l r b (vt_surface v) = Ret (ROk o) /\
    (forall x, mk_vol m' x = if String.eqb x u then Some (VolEntry o (vt_coll v) (vt_borrow v)) else mk_vol m x) /\
    mk_world m' = mk_world m /\ mk_equity m' = mk_equity m /\ mk_dividend m' = mk_dividend m /\ mk_curve m' = mk_curve m.
Definition div_bumped (u : string) (d1 d2 : option odt) (b : f32) (m m' : market) : Prop :=
  exists k v v', mk_dividend m u = Some k /\ nth_error (w_dividends (mk_world m)) k = Some v /\ bump_dividend v d1 d2 b = Ret (ROk tt, v') /\
    (forall j, nth_error (w_dividends (mk_world m')) j = if Nat.eqb j k then Some v' else nth_error (w_dividends (mk_world m)) j) /\
    w_date (mk_world m') = w_date (mk_world m) /\ w_prices (mk_world m') = w_prices (mk_world m) /\ w_pobs (mk_world m') = w_pobs (mk_world m) /\ w_dobs (mk_world m') = w_dobs (mk_world m) /\
    mk_equity m' = mk_equity m /\ mk_dividend m' = mk_dividend m /\ mk_curve m' = mk_curve m /\ mk_vol m' = mk_vol m.
(** the keys are bumped up and down again, one after the other *)
Inductive trail {K : Type} (B : K -> f32 -> market -> market -> Prop) (b : f32) : list K -> market -> market -> Prop :=
| TrailNone : forall m, trail B b [] m m
| TrailMore : forall ks k m m1 m2 m3, trail B b ks m m1 -> B k b m1 m2 -> B k (gneg b) m2 m3 -> trail B b (ks ++ [k]) m m3.

(** [m'] is [m] but for a bump up and down again of each of the curves [ns] *)
Definition curves_nudged (f_exp : f32 -> f32) (b : f32) (ns : list string) (m m' : market) : Prop :=
  mk_world m' = mk_world m /\ mk_equity m' = mk_equity m /\ mk_dividend m' = mk_dividend m /\ mk_vol m' = mk_vol m /\
  forall n, (~ In n ns -> mk_curve m' n = mk_curve m n) /\
    (In n ns -> exists c c1 c2, mk_curve m n = Some c /\ bump_times f_exp c None None b = Ret (ROk tt, c1) /\ bump_times f_exp c1 None None (gneg b) = Ret (ROk tt, c2) /\ mk_curve m' n = Some c2).
Definition vols_nudged (b : f32) (us : list string) (m m' : market) : Prop :=
  mk_world m' = mk_world m /\ mk_equity m' = mk_equity m /\ mk_dividend m' = mk_dividend m /\ mk_curve m' = mk_curve m /\
  forall u, (~ In u us -> mk_vol m' u = mk_vol m u) /\
    (In u us -> exists v e o1 o2, mk_vol m u = Some v /\ env_of m u v = Some e /\ bump_surface e None None None None b (vt_surface v) = Ret (ROk o1) /\ bump_surface e None None None None (gneg b) o1 = Ret (ROk o2) /\
       mk_vol m' u = Some (VolEntry o2 (vt_coll v) (vt_borrow v))).
(** where dividends are not shared between underlyings *)
Definition divs_apart (m : market) : Prop := forall u v k, mk_dividend m u = Some k -> mk_dividend m v = Some k -> u = v.
Definition divs_nudged (b : f32) (us : list string) (m m' : market) : Prop :=
  w_date (mk_world m') = w_date (mk_world m) /\ w_prices (mk_world m') = w_prices (mk_world m) /\ w_pobs (mk_world m') = w_pobs (mk_world m) /\ w_dobs (mk_world m') = w_dobs (mk_world m) /\
  mk_equity m' = mk_equity m /\ mk_dividend m' = mk_dividend m /\ mk_curve m' = mk_curve m /\ mk_vol m' = mk_vol m /\
  forall k, ((forall u, In u us -> mk_dividend m u <> Some k) -> nth_error (w_dividends (mk_world m')) k = nth_error (w_dividends (mk_world m)) k) /\
    (forall u, In u us -> mk_dividend m u = Some k -> exists v v1 v2, nth_error (w_dividends (mk_world m)) k = Some v /\ bump_dividend v None None b = Ret (ROk tt, v1) /\ bump_dividend v1 None None (gneg b) = Ret (ROk tt, v2) /\
       nth_error (w_dividends (mk_world m')) k = Some v2).

(** ** Ladders *)
(** the windows between the tenors: up to the first, then each from the one before *)
Fixpoint windows {W : Type} (from : option W) (ws : list W) : list (option W * option W) := match ws with [] => [] | w :: ws' => (from, Some w) :: windows (Some w) ws' end.
(** one of the instruments [U] is still alive after [d] *)
Definition alive_after (U : instrument -> Prop) (d : odt) : Prop := exists i, U i /\ forall m, maturity i = Some m -> instant d < instant m.
(** rung [j] is reached: one of the instruments is alive after each of the tenors
    below *)
Definition rung_reached (U : instrument -> Prop) (ends : list odt) (j : nat) : Prop := forall l d, (l < j)%nat -> nth_error ends l = Some d -> alive_after U d.
Definition reported_ladder (s : state) (i : instrument) (g : ladder) (k : string) (v : list f32) : Prop := reported s i (fun c => ca_ladder c g k = Some v).
(** [climbed] has each key and how many of its rungs are reached *)
Definition rungs_climbed (users : string -> instrument -> Prop) (ends : list odt) (climbed : list (string * nat)) : Prop :=
  Forall (fun p => forall j, (j < snd p)%nat <-> (j < List.length ends)%nat /\ (exists i, users (fst p) i) /\ rung_reached (users (fst p)) ends j) climbed.
(** the windows of these rungs, key by key *)
Definition visits {W : Type} (wins : list (option W * option W)) (climbed : list (string * nat)) : list (string * (option W * option W)) := flat_map (fun p => map (pair (fst p)) (firstn (snd p) wins)) climbed.
(** A ladder is reported for the keys [ks]: rung [j] of the ladder of [i] in [k] is
    the change of its price when only the [j]-th window of [k] is bumped, in the
    market of before but for windows bumped up and down again; rungs not reached
    are zero. *)
Definition laddered {W : Type} (cx : context) (g : ladder) (B : string * (option W * option W) -> f32 -> market -> market -> Prop) (b unit : f32) (users : string -> instrument -> Prop) (ws : list W) (ends : list odt) (ks : list string) (s s' : state) : Prop :=
  let wins := windows None ws in
  (exists climbed, map fst climbed = ks /\ rungs_climbed users ends climbed /\ trail B b (visits wins climbed) (st_market s) (st_market s')) /\
  only (fun c x => exists i k, In k ks /\ users k i /\ c = code i /\ x = LadderCell g k) s s' /\
  forall k i, In k ks -> users k i -> exists v, reported_ladder s' i g k v /\ List.length v = List.length ends /\
    forall j, (j < List.length ends)%nat ->
      (rung_reached (users k) ends j -> exists climbed w m1 m2 up npv, ~ In k (map fst climbed) /\ rungs_climbed users ends climbed /\ nth_error wins j = Some w /\
         trail B b (visits wins climbed ++ map (pair k) (firstn j wins)) (st_market s) m1 /\ B (k, w) b m1 m2 /\ priced cx m2 i up /\ reported_npv s i npv /\ nth_error v j = Some (slope up npv b unit (notional i))) /\
      (~ rung_reached (users k) ends j -> nth_error v j = Some (gof_Z 0)).

(** ** Vega by tenor *)
(** the surface of [u] is bumped in the windows of the tenors, the last first, and
    none is taken back; at the end the whole surface is lowered; [ms i] is the market
    after the windows from [i] on *)
Definition descent (u : string) (b : f32) (times : list f32) (ms : nat -> market) (m m' : market) : Prop :=
  ms (List.length times) = m /\ (forall i start stop, nth_error (windows None times) i = Some (start, stop) -> vol_bumped u start stop None None b (ms (S i)) (ms i)) /\ vol_bumped u None None None None (gneg b) (ms 0%nat) m'.
Inductive descents (b : f32) (times : list f32) : list string -> market -> market -> Prop :=
| DescNone : forall m, descents b times [] m m
| DescMore : forall us u ms m m1 m2, descents b times us m m1 -> descent u b times ms m1 m2 -> descents b times (us ++ [u]) m m2.
(** the time to the last maturity of the instruments [U], without end if one has none *)
Definition last_time (U : instrument -> Prop) (eval : odt) (l : f32) : Prop :=
  ((exists i, U i /\ maturity i = None) /\ l = gof_Z 100000000) \/
  exists i m, U i /\ maturity i = Some m /\ get_time_difference eval m = Ret l /\ forall j, U j -> exists m', maturity j = Some m' /\ instant m' <= instant m.
(** tenor [i] is skipped: its window starts after the last maturity *)
Definition tenor_skipped (times : list f32) (last : f32) (i : nat) : Prop := exists start stop, nth_error (windows None times) i = Some (Some start, stop) /\ o_lt fcmp last start = true.
(** the price from which the change at tenor [j] is counted: that with the windows
    from the next tenor on that is not skipped, else the reported one *)
Definition price_before (cx : context) (s : state) (times : list f32) (last : f32) (ms : nat -> market) (i : instrument) (j : nat) (x : f32) : Prop :=
  (exists l, (j < l < List.length times)%nat /\ ~ tenor_skipped times last l /\ (forall k, (j < k < l)%nat -> tenor_skipped times last k) /\ priced cx (ms l) i x) \/
  ((forall k, (j < k < List.length times)%nat -> tenor_skipped times last k) /\ reported_npv s i x).

(** ** Theta *)
(** the evaluation date becomes [d]; prices and dividends follow it *)
Definition date_moved (d : odt) (m m' : market) : Prop :=
  set_date (mk_world m) d = Ret (mk_world m') /\ mk_equity m' = mk_equity m /\ mk_dividend m' = mk_dividend m /\ mk_curve m' = mk_curve m /\ mk_vol m' = mk_vol m.
Definition reported_theta (s : state) (i : instrument) (v : f32) : Prop := reported s i (fun c => ca_theta c = Some v).
(** the cash flows after the day of [from] up to that of [upto], added up *)
Definition paid (from upto : odt) (l : list (odt * f32)) : f32 :=
  fold_left gadd (map snd (List.filter (fun p => (od_day from <? od_day (fst p)) && (od_day (fst p) <=? od_day upto)) l)) (gof_Z 0).
(** the change of the price and the cash, [unit] of the instrument, for one day of
    [years] years *)
Definition decay (up npv cash unit years : f32) : f32 := gmul (gdiv (gdiv (gmul (gadd (gsub up npv) cash) unit) years) (gof_Z 365)) (gof_Z 1).
(** the instruments [U] are priced in [m], then at the date [e], and [m'] is the
    market with the date put back; without instruments nothing happens *)
Definition theta_round (cx : context) (s s' : state) (eval e : odt) (U : instrument -> Prop) (m m' : market) : Prop :=
  ((forall i, ~ U i) /\ m' = m) \/
  exists later years, date_moved e m later /\ date_moved eval later m' /\ get_time_difference eval e = Ret years /\
    forall i, U i -> exists npv up unit flows, priced cx m i npv /\ priced cx later i up /\ reported s i (fun c => ca_unit c = unit /\ ca_cash c = Some flows) /\
      reported_theta s' i (decay up npv (paid eval e (cx_cash cx flows)) unit years).

(** ** Vega by tenor and moneyness *)
Definition entry {A : Type} (v : list (list A)) (i j : nat) : option A := match nth_error v i with Some row => nth_error row j | None => None end.
Definition reported_matrix (s : state) (i : instrument) (k : string) (v : list (list f32)) : Prop := reported s i (fun c => ca_matrix c k = Some v).
(** cells are bumped one after the other, each on top of those before; with every cell
    the market after it *)
Fixpoint walked (u : string) (b : f32) (times money : list f32) (m : market) (steps : list ((nat * nat) * market)) (m' : market) : Prop :=
  match steps with
  | [] => m' = m
  | ((i, j), m1) :: steps' => (exists start stop lo hi, nth_error (windows None times) i = Some (start, stop) /\ nth_error (windows None money) j = Some (lo, hi) /\ vol_bumped u start stop lo hi b m m1) /\ walked u b times money m1 steps' m'
  end.
(** the cells: the tenors from the last, without those that are skipped, in each the
    moneynesses from the first *)
Definition cell_order (times money : list f32) (last : f32) (cells : list (nat * nat)) : Prop :=
  Sorted.StronglySorted (fun p q => (fst q < fst p)%nat \/ fst p = fst q /\ (snd p < snd q)%nat) cells /\
  forall i j, In (i, j) cells <-> (i < List.length times)%nat /\ ~ tenor_skipped times last i /\ (j < List.length money)%nat.
(** one underlying after the other; after the cells the whole surface is lowered *)
Inductive walks (b : f32) (times money : list f32) : list string -> market -> market -> Prop :=
| WalkNone : forall m, walks b times money [] m m
| WalkMore : forall us u steps m m1 m2 m3, walks b times money us m m1 -> walked u b times money m1 steps m2 -> vol_bumped u None None None None (gneg b) m2 m3 -> walks b times money (us ++ [u]) m m3.
(** the price before a step: that with the steps [pre], without any the reported one *)
Definition price_after (cx : context) (s : state) (i : instrument) (pre : list ((nat * nat) * market)) (x : f32) : Prop :=
  match rev pre with [] => reported_npv s i x | (_, m) :: _ => priced cx m i x end.
