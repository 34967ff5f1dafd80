(** QVolMktProps.v -- C178 and C179: surfaces from quotes. *)
From Coq Require Import ZArith Arith Ascii String.
From Coq Require Import List Bool Lia Reals Lra.
From Flocq Require Import Core IEEE754.BinarySingleNaN.
From Verif Require Import Base FloatModel FloatFacts KrxModel QDateModel QYearModel QPeriodModel QFindModel QFindSpec QFindProofs QFindProps QInterpModel QInterpSpec QInterpProofs QFloatErr QLinProofs QLinProps QBilinProps
  QDivModel QDivSpec QDivProps QSwapModel QSwapSpec QSwapProps QBondProofs QCurveModel QCurveFacts QCurveExp QCurveProps QCurveFwdProps QBondSpec QBondPriceProps QMoneyModel QFutModel QFutProps QOptProofs QVolModel QVolSpec QVolProofs QVolProps QPeriodSpec QCurveSpec.
Import ListNotations.
Open Scope R_scope.

(** ** what a surface from quotes has gone through *)
Lemma market_inv : forall e k d tenors money s, with_market_surface e k d tenors money = Ret (ROk s) ->
  exists times spot fwds market, windows (fun a b => negb (instant b <? instant a)%Z) (sd_dates d) = true /\ existsb (fun x => (instant x <? instant (ve_eval e))%Z) (sd_dates d) = false /\
    times_of (ve_eval e) (sd_dates d) times /\ sd_spot d = Some spot /\ Forall2 (fun x f => vol_forward e spot x = Ret (ROk f)) (sd_dates d) fwds /\
    bilinear_rect times (quote_money d spot) (sd_value d) (sd_cols d) true XFlat true XFlat = Ret (ROk market) /\
    Forall2 (fun p x => add_period (ve_eval e) p = Ret x) tenors (su_dates s) /\ windows (fun a b => (instant a <=? instant b)%Z) (su_dates s) = true /\
    times_of (ve_eval e) (su_dates s) (su_times s) /\ windows (o_le fcmp) (su_times s) = true /\
    Forall2 (fun t row => Forall2 (fun x v => bilinear_interpolate market t x = Ret (ROk v)) money row) (su_times s) (su_grid s) /\
    su_money s = money /\ su_spot s = spot /\ su_sticky s = k.
Proof.
  intros e k d tenors money s H. unfold with_market_surface in H.
  destruct (windows (fun a b => negb (instant b <? instant a)%Z) (sd_dates d)) eqn:W1; cbn [negb] in H; [|discriminate H].
  destruct (existsb (fun x => (instant x <? instant (ve_eval e))%Z) (sd_dates d)) eqn:W2; [discriminate H|].
  destruct (map_out (get_time_difference (ve_eval e)) (sd_dates d)) as [times| |] eqn:ET; cbn [obind] in H; try discriminate H.
  destruct (sd_spot d) as [spot|] eqn:ES; [|discriminate H].
  destruct (map_res (vol_forward e spot) (sd_dates d)) as [[fwds|]| |] eqn:EF; cbn [rbind] in H; try discriminate H.
  fold (quote_money d spot) in H.
  destruct (bilinear_rect times (quote_money d spot) (sd_value d) (sd_cols d) true XFlat true XFlat) as [[market|]| |] eqn:EM; cbn [rbind] in H; try discriminate H.
  destruct (map_out (add_period (ve_eval e)) tenors) as [dates| |] eqn:ED; cbn [obind] in H; try discriminate H.
  destruct (windows (fun a b => (instant a <=? instant b)%Z) dates) eqn:W3; cbn [negb] in H; [|discriminate H].
  destruct (map_out (fun t => let! x := add_period (ve_eval e) t in get_time_difference (ve_eval e) x) tenors) as [ts| |] eqn:EU; cbn [obind] in H; try discriminate H.
  destruct (windows (o_le fcmp) ts) eqn:W4; cbn [negb] in H; [|discriminate H].
  destruct (map_res (fun t => map_res (fun x => bilinear_interpolate market t x) money) ts) as [[grid|]| |] eqn:EG; cbn [rbind] in H; try discriminate H.
  injection H as <-. cbn. exists times, spot, fwds, market. split; [reflexivity|]. split; [reflexivity|]. split; [exact (map_out_forall2 _ _ _ _ _ ET)|]. split; [reflexivity|]. split; [apply map_res_F2; exact EF|]. split; [exact EM|].
  pose proof (map_out_forall2 _ _ _ _ _ ED) as D. pose proof (map_out_forall2 _ _ _ _ _ EU) as U. split; [exact D|]. split; [exact W3|]. split.
  { clear - D U. revert ts U. unfold times_of. induction D as [|p x tenors dates P D IH]; intros ts U; inversion U as [|? t ? ts' U1 U2]; subst; constructor; [rewrite P in U1; exact U1|exact (IH _ U2)]. }
  split; [exact W4|]. split; [|auto]. apply map_res_F2 in EG. clear - EG. induction EG as [|t row ts grid H F IH]; constructor; [|exact IH]. apply map_res_F2. exact H.
Qed.

(** ** C178: the grid is read off the quotes, and the quotes come back *)
(** the quotes as a surface with unit spot price and unit forwards *)
Definition quote_surface (d : surface_data) (spot : f32) (times : list f32) : surface := Surface (sd_value d) [] times (quote_money d spot) (gof_Z 1) no_bilinear StickyToMoneyness.
Definition ones (times : list f32) : list f32 := map (fun _ => gof_Z 1) times.
Lemma unit_money : forall m : f32, finite m -> / 2 ^ 10 <= value m <= 2 ^ 10 -> gdiv (gmul m (gof_Z 1)) (gof_Z 1) = m.
Proof.
  intros m Fm R. destruct one_fn as [F1 V1]. assert (P : 0 < / 2 ^ 10) by (apply Rinv_0_lt_compat; lra).
  assert (HV : Rabs (value m) <= huge 128) by (rewrite hug; apply two100_127; rewrite Rabs_pos_eq by lra; pose proof pow60_100 as [_ Q]; lra).
  pose proof (fin_mul 24 128 m (gof_Z 1) _ _ (conj Fm eq_refl) (conj F1 V1)) as A. rewrite Rmult_1_r in A. specialize (A HV). rewrite (rnd_B2R 24 128) in A.
  pose proof (fin_div 24 128 _ (gof_Z 1) _ _ A (conj F1 V1) ltac:(lra)) as B. unfold Rdiv in B. rewrite Rinv_1, Rmult_1_r in B. specialize (B HV). rewrite (rnd_B2R 24 128) in B.
  apply same_float; [exact (proj1 B)|exact Fm|exact (proj2 B)|lra].
Qed.
Lemma unit_moneys : forall l, Forall (fun m => finite m /\ / 2 ^ 10 <= value m <= 2 ^ 10) l -> forward_money l (gof_Z 1) (gof_Z 1) = l.
Proof. intros l F. unfold forward_money. induction F as [|m l [Fm R] F IH]; [reflexivity|]. cbn [map]. rewrite (unit_money m Fm R). f_equal. exact IH. Qed.
Lemma quotes_tame : forall d spot times M, tame_quotes d spot times M -> tame (quote_surface d spot times) (ones times) M.
Proof.
  intros d spot times M [[R1 R2] [C1 [C2 C3]] TI MO VO]. destruct one_fn as [F1 V1]. assert (P20 : / 2 ^ 20 <= 1) by (rewrite <- Rinv_1; apply Rinv_le; lra).
  assert (LQ : length (quote_money d spot) = length (sd_strikes d)) by apply map_length.
  assert (OK : finite (gof_Z 1) /\ / 2 ^ 20 <= value (gof_Z 1) <= 2 ^ 30) by (split; [exact F1|]; unfold value; rewrite V1; lra).
  split; cbn [quote_surface su_times su_grid su_money su_spot]; try assumption.
  - unfold ones. rewrite map_length. auto.
  - rewrite LQ. auto.
  - constructor; [exact OK|]. apply Forall_forall. intros x I. apply in_map_iff in I. destruct I as (t & <- & _). exact OK.
Qed.
Lemma quotes_laid : forall d spot times M market, tame_quotes d spot times M -> bilinear_rect times (quote_money d spot) (sd_value d) (sd_cols d) true XFlat true XFlat = Ret (ROk market) ->
  laid (quote_surface d spot times) (ones times) market.
Proof.
  intros d spot times M market T E. pose proof (quotes_tame d spot times M T) as TT. destruct (times_ok _ _ _ TT) as [FT ST]. cbn [quote_surface su_times] in FT, ST. destruct T as [[R1 R2] [C1 [C2 C3]] TI [MO1 MO2] VO].
  unfold bilinear_rect in E. destruct ((length times <? 2)%nat || (length (quote_money d spot) <? 2)%nat); [discriminate E|].
  destruct (negb (length times =? length (sd_value d))%nat); [discriminate E|]. destruct (negb (length (quote_money d spot) =? sd_cols d)%nat); [discriminate E|].
  destruct (map_res (fun row => linear_new (quote_money d spot) row XFlat true) (sd_value d)) as [[xs|]| |] eqn:EX; cbn [rbind] in E; try discriminate E. injection E as <-.
  apply map_res_F2 in EX. pose proof (F2_length _ _ _ _ _ EX) as LX. exists xs. cbn [quote_surface su_times su_grid su_money su_spot]. split.
  - rewrite (eq_sym R2) in *. clear - EX MO1 R2. revert times R2. induction EX as [|row l rows xs H F IH]; intros times R2.
    + destruct times; [constructor|discriminate R2].
    + destruct times as [|t times]; [discriminate R2|]. cbn [ones map combine]. constructor; [cbn [fst snd]; rewrite (unit_moneys _ MO1); exact H|]. apply IH. injection R2 as R2. exact R2.
  - destruct (c118_new times xs true XFlat) as (_ & _ & B). rewrite B; [reflexivity|congruence|intro Q; rewrite Q in R1; cbn in R1; lia|].
    intros i a b A A' C. pose proof (ST i (i + 1)%nat a b ltac:(lia) A A') as Q. unfold lt in Q. congruence.
Qed.
Lemma quotes_sheet : forall d spot times, Forall (fun m => finite m /\ / 2 ^ 10 <= value m <= 2 ^ 10) (quote_money d spot) -> length (sd_value d) = length times ->
  sheet_rows (quote_surface d spot times) (ones times) = quote_rows d spot times.
Proof.
  intros d spot times F L. unfold sheet_rows, quote_rows. cbn [quote_surface su_times su_grid su_money su_spot]. pose proof (unit_moneys _ F) as U. unfold forward_money in U. revert L. generalize (sd_value d) as rows. clear F.
  assert (K : forall row, knots (quote_money d spot) (gof_Z 1) (gof_Z 1) row = combine (map value (quote_money d spot)) (map value row)) by (intro row; unfold knots; rewrite <- U at 2; rewrite map_map; reflexivity).
  induction times as [|t times IH]; intros rows L; [reflexivity|]. destruct rows as [|row rows]; [discriminate L|]. cbn [ones map combine fst snd]. rewrite K. f_equal. apply IH. injection L as L. exact L.
Qed.
Theorem c178_shape : forall e k d tenors money s, with_market_surface e k d tenors money = Ret (ROk s) ->
  sd_spot d = Some (su_spot s) /\ su_money s = money /\ su_sticky s = k /\ Forall2 (fun p x => add_period (ve_eval e) p = Ret x) tenors (su_dates s) /\ times_of (ve_eval e) (su_dates s) (su_times s) /\
  length (su_grid s) = length tenors /\ Forall (fun row => length row = length money) (su_grid s).
Proof.
  intros e k d tenors money s H. destruct (market_inv _ _ _ _ _ _ H) as (times & spot & fwds & market & _ & _ & _ & ES & _ & _ & D & _ & TT & _ & G & MO & SP & ST). rewrite SP. repeat (split; [assumption|]). split.
  - pose proof (F2_length _ _ _ _ _ G). pose proof (F2_length _ _ _ _ _ D). pose proof (F2_length _ _ _ _ _ TT). congruence.
  - clear - G. induction G as [|t row ts grid H F IH]; constructor; [symmetry; exact (F2_length _ _ _ _ _ H)|exact IH].
Qed.
Theorem c178_grid : forall e k d tenors money s times M i j t m, with_market_surface e k d tenors money = Ret (ROk s) -> times_of (ve_eval e) (sd_dates d) times -> tame_quotes d (su_spot s) times M ->
  nth_error (su_times s) i = Some t -> nth_error money j = Some m -> finite t -> finite m ->
  exists v, cell (su_grid s) i j = Some v /\ finite v /\ Rabs (value v - sheet (quote_rows d (su_spot s) times) (value t) (value m)) <= 25 * / 2 ^ 24 * M + / 2 ^ 70.
Proof.
  intros e k d tenors money s times M i j t m H TI T Ht Hm Ft Fm. destruct (market_inv _ _ _ _ _ _ H) as (times' & spot & fwds & market & _ & _ & TI' & ES & _ & EM & _ & _ & _ & _ & G & _ & SP & _).
  assert (times' = times). { clear - TI TI'. revert times' TI'. unfold times_of in *. induction TI as [|x t l ts A B IH]; intros ts' C; inversion C as [|? ? ? ? D F]; subst; [reflexivity|]. f_equal; [congruence|exact (IH _ F)]. } subst times'. rewrite SP in *.
  assert (I : (i < length (su_grid s))%nat) by (rewrite <- (F2_length _ _ _ _ _ G); apply nth_error_Some; congruence). destruct (at_lt _ (su_grid s) i I) as (row & Hr & _). pose proof (F2_nth _ _ _ _ _ i t row G Ht Hr) as GR. cbn beta in GR.
  assert (J : (j < length row)%nat) by (rewrite <- (F2_length _ _ _ _ _ GR); apply nth_error_Some; congruence). destruct (at_lt _ row j J) as (v & Hv & _). pose proof (F2_nth _ _ _ _ _ j m v GR Hm Hv) as EV. cbn beta in EV.
  exists v. split; [unfold cell; rewrite Hr; exact Hv|]. destruct (laid_close _ _ M (quotes_tame _ _ _ _ T) market (quotes_laid _ _ _ _ _ T EM) t m Ft Fm) as (y & Ey & Fy & C). rewrite EV in Ey. injection Ey as <-. split; [exact Fy|].
  destruct T as [[_ R2] _ _ [M1 _] _]. rewrite (quotes_sheet d spot times M1 R2) in C. exact C.
Qed.
(** a tenor on a quoted date, a moneyness of a quoted strike: the quote itself *)
Theorem c178_quotes : forall e k d tenors money s times M i j a b t m row v, with_market_surface e k d tenors money = Ret (ROk s) -> times_of (ve_eval e) (sd_dates d) times -> tame_quotes d (su_spot s) times M ->
  nth_error (su_times s) i = Some t -> nth_error money j = Some m -> nth_error times a = Some t -> nth_error (quote_money d (su_spot s)) b = Some m -> nth_error (sd_value d) a = Some row -> nth_error row b = Some v ->
  exists w, cell (su_grid s) i j = Some w /\ finite w /\ value w = value v.
Proof.
  intros e k d tenors money s times M i j a b t m row v H TI T Ht Hm Ha Hb Hr Hv.
  assert (FTM : finite t /\ finite m /\ / 2 ^ 10 <= value m <= 2 ^ 10). { destruct T as [_ _ [T1 _] [M1 _] _]. rewrite Forall_forall in T1, M1. destruct (T1 t (nth_error_In _ _ Ha)) as [X _]. destruct (M1 m (nth_error_In _ _ Hb)) as [Y Z]. auto. } destruct FTM as (Ft & Fm & Rm).
  destruct (c178_grid _ _ _ _ _ _ _ _ _ _ _ _ H TI T Ht Hm Ft Fm) as (w & Cw & Fw & _). exists w. split; [exact Cw|]. split; [exact Fw|].
  destruct (market_inv _ _ _ _ _ _ H) as (times' & spot & fwds & market & _ & _ & TI' & ES & _ & EM & _ & _ & _ & _ & G & _ & SP & _).
  assert (times' = times). { clear - TI TI'. revert times' TI'. unfold times_of in *. induction TI as [|x t l ts A B IH]; intros ts' C; inversion C as [|? ? ? ? D F]; subst; [reflexivity|]. f_equal; [congruence|exact (IH _ F)]. } subst times'. rewrite SP in *.
  unfold cell in Cw. destruct (nth_error (su_grid s) i) as [row'|] eqn:Hr'; [|discriminate Cw]. pose proof (F2_nth _ _ _ _ _ i t row' G Ht Hr') as GR. cbn beta in GR. pose proof (F2_nth _ _ _ _ _ j m w GR Hm Cw) as EV. cbn beta in EV.
  assert (HO : nth_error (ones times) a = Some (gof_Z 1)) by exact (map_nth_error _ _ _ Ha).
  destruct (laid_knot _ _ M (quotes_tame _ _ _ _ T) market (quotes_laid _ _ _ _ _ T EM) a b t (gof_Z 1) row m v Ha HO Hr Hb Hv) as (y & Ey & Fy & Vy).
  cbn [quote_surface su_spot] in Ey. rewrite (unit_money m Fm Rm) in Ey. rewrite EV in Ey. apply (f_equal (fun o => match o with Ret (ROk z) => value z | _ => 0 end)) in Ey. rewrite Ey. exact Vy.
Qed.
(** and the built surface gives it at that date and strike *)
Theorem c178_round_trip : forall e k d tenors money s s' times fwds M N i j a b t m row v f, with_market_surface e k d tenors money = Ret (ROk s) -> times_of (ve_eval e) (sd_dates d) times -> tame_quotes d (su_spot s) times M ->
  tame s fwds N -> forwards e (sticky_spot e s) s fwds -> vol_build e s = Ret (ROk s') ->
  nth_error (su_times s) i = Some t -> nth_error money j = Some m -> nth_error times a = Some t -> nth_error (quote_money d (su_spot s)) b = Some m -> nth_error (sd_value d) a = Some row -> nth_error row b = Some v -> nth_error fwds i = Some f ->
  exists y, surface_value s' t (gdiv (gmul m (su_spot s)) f) = Ret y /\ finite y /\ value y = value v.
Proof.
  intros e k d tenors money s s' times fwds M N i j a b t m row v f H TI T TS FW B Ht Hm Ha Hb Hr Hv Hf.
  destruct (c178_quotes _ _ _ _ _ _ _ _ _ _ _ _ _ _ _ _ H TI T Ht Hm Ha Hb Hr Hv) as (w & Cw & Fw & Vw). unfold cell in Cw. destruct (nth_error (su_grid s) i) as [row'|] eqn:Hr'; [|discriminate Cw].
  destruct (c178_shape _ _ _ _ _ _ H) as (_ & MO & _). rewrite <- MO in Hm. destruct (c176_knots e s s' fwds N i j t f row' m w TS FW B Ht Hf Hr' Hm Cw) as (y & Ey & Fy & Vy). exists y. rewrite <- Vw. auto.
Qed.

(** ** C179: quotes that are refused *)
Lemma windows_false : forall A (p : A -> A -> bool) l i a b, nth_error l i = Some a -> nth_error l (i + 1) = Some b -> p a b = false -> windows p l = false.
Proof.
  intros A p. induction l as [|x l IH]; intros i a b Ha Hb P; [destruct i; discriminate Ha|]. destruct i as [|i].
  - cbn in Ha. injection Ha as ->. destruct l as [|y l]; [discriminate Hb|]. cbn in Hb. injection Hb as ->. cbn [windows]. rewrite P. reflexivity.
  - destruct l as [|y l]; [destruct i; discriminate Ha|]. change (windows p (x :: y :: l)) with (p x y && windows p (y :: l)). rewrite (IH i a b Ha Hb P). apply andb_false_r.
Qed.
Lemma windows_true : forall A (p : A -> A -> bool) l i a b, windows p l = true -> nth_error l i = Some a -> nth_error l (i + 1) = Some b -> p a b = true.
Proof. intros A p l i a b W Ha Hb. destruct (p a b) eqn:P; [reflexivity|]. rewrite (windows_false A p l i a b Ha Hb P) in W. discriminate W. Qed.
Theorem c179_unsorted : forall e k d tenors money i a b, nth_error (sd_dates d) i = Some a -> nth_error (sd_dates d) (i + 1) = Some b -> (instant b < instant a)%Z -> with_market_surface e k d tenors money = Ret RErr.
Proof. intros e k d tenors money i a b Ha Hb L. unfold with_market_surface. rewrite (windows_false _ _ _ i a b Ha Hb); [reflexivity|]. apply Z.ltb_lt in L. rewrite L. reflexivity. Qed.
Theorem c179_stale : forall e k d tenors money x, In x (sd_dates d) -> (instant x < instant (ve_eval e))%Z -> with_market_surface e k d tenors money = Ret RErr.
Proof.
  intros e k d tenors money x I L. unfold with_market_surface. destruct (negb _); [reflexivity|]. replace (existsb (fun y => (instant y <? instant (ve_eval e))%Z) (sd_dates d)) with true; [reflexivity|].
  symmetry. apply existsb_exists. exists x. split; [exact I|]. apply Z.ltb_lt. exact L.
Qed.
Theorem c179_no_spot : forall e k d tenors money, sd_spot d = None -> forall s, with_market_surface e k d tenors money <> Ret (ROk s).
Proof. intros e k d tenors money N s H. destruct (market_inv _ _ _ _ _ _ H) as (times & spot & fwds & market & _ & _ & _ & ES & _). congruence. Qed.
(** what a surface that was accepted says about its quotes and its tenors *)
Theorem c179_accepted : forall e k d tenors money s, with_market_surface e k d tenors money = Ret (ROk s) -> Forall (fun row => length row = sd_cols d) (sd_value d) ->
  (2 <= length (sd_dates d))%nat /\ (2 <= length (sd_strikes d))%nat /\ length (sd_value d) = length (sd_dates d) /\ sd_cols d = length (sd_strikes d) /\
  steps (fun a b => (instant a <= instant b)%Z) (sd_dates d) /\ Forall (fun x => (instant (ve_eval e) <= instant x)%Z) (sd_dates d) /\ not_decreasing (quote_money d (su_spot s)) /\
  Forall (fun x => exists f, vol_forward e (su_spot s) x = Ret (ROk f)) (sd_dates d) /\
  steps (fun a b => (instant a <= instant b)%Z) (su_dates s) /\ steps (le fcmp) (su_times s).
Proof.
  intros e k d tenors money s H F. destruct (market_inv _ _ _ _ _ _ H) as (times & spot & fwds & market & W1 & W2 & TI & ES & FF & EM & _ & W3 & _ & W4 & _ & _ & SP & _). rewrite SP.
  assert (LQ : length (quote_money d spot) = length (sd_strikes d)) by apply map_length. pose proof (F2_length _ _ _ _ _ TI) as LT.
  destruct (c118_rect times (quote_money d spot) (sd_value d) (sd_cols d) true XFlat true XFlat F) as [RE _]. rewrite EM in RE. assert (N : ~ (length times < 2 \/ length (quote_money d spot) < 2 \/ length times <> length (sd_value d) \/ length (quote_money d spot) <> sd_cols d \/ decreasing_somewhere (quote_money d spot))%nat) by (intro Q; specialize (RE Q); discriminate RE).
  split; [lia|]. split; [lia|]. split; [lia|]. split; [lia|]. split; [|split; [|split; [|split; [|split]]]].
  - intros i a b A B. pose proof (windows_true _ _ _ i a b W1 A B) as Q. cbn beta in Q. apply negb_true_iff in Q. apply Z.ltb_ge in Q. exact Q.
  - apply Forall_forall. intros x I. destruct (Z.lt_ge_cases (instant x) (instant (ve_eval e))) as [L|L]; [|exact L]. exfalso. assert (X : existsb (fun x => (instant x <? instant (ve_eval e))%Z) (sd_dates d) = true) by (apply existsb_exists; exists x; split; [exact I|apply Z.ltb_lt; exact L]). congruence.
  - intros i a b A B C. apply N. right. right. right. right. exists i, a, b. auto.
  - clear - FF. induction FF as [|x f l fs A B IH]; constructor; [eauto|exact IH].
  - intros i a b A B. pose proof (windows_true _ _ _ i a b W3 A B) as Q. cbn beta in Q. apply Z.leb_le in Q. exact Q.
  - intros i a b A B. pose proof (windows_true _ _ _ i a b W4 A B) as Q. unfold o_le, le in *. destruct (fcmp a b) as [[]|]; auto; discriminate Q.
Qed.
(** REFUTED: a repeated strike is accepted, and a volatility that is not a number
    comes out *)
Definition quote_dates : list odt := [civil 2025 3 15 (9 * 3600 * 1000000000) (9 * 3600); civil 2029 3 15 (9 * 3600 * 1000000000) (9 * 3600)].
Definition quotes_of (strikes row : list f32) : surface_data := SurfaceData (Some (gof_Z 100)) [row; row] (List.length strikes) quote_dates strikes.
Definition repeated : surface_data := quotes_of [gof_Z 90; gof_Z 100; gof_Z 100; gof_Z 110] [sixteenth; sixteenth; eighth; eighth].
Definition bad_cell (d : surface_data) (c : outcome (rresult curve)) : bool :=
  match c with
  | Ret (ROk c) => match with_market_surface (ex_env c) StickyToStrike d ex_tenors ex_money with Ret (ROk s) => match cell (su_grid s) 0 0 with Some v => negb (is_finite v) | None => false end | _ => false end
  | _ => false
  end.
Lemma bad_cell_ok : forall d oc, bad_cell d oc = true -> exists c s v, oc = Ret (ROk c) /\ with_market_surface (ex_env c) StickyToStrike d ex_tenors ex_money = Ret (ROk s) /\ cell (su_grid s) 0 0 = Some v /\ ~ finite v.
Proof.
  intros d oc B. unfold bad_cell in B. destruct oc as [[c|]| |]; [|discriminate B|discriminate B|discriminate B]. destruct (with_market_surface (ex_env c) StickyToStrike d ex_tenors ex_money) as [[s|]| |] eqn:ES; [|discriminate B|discriminate B|discriminate B].
  destruct (cell (su_grid s) 0 0) as [v|] eqn:EC; [|discriminate B]. exists c, s, v. split; [reflexivity|]. split; [exact ES|]. split; [exact EC|]. unfold finite. destruct (is_finite v); [discriminate B|discriminate].
Qed.
Theorem c179_repeated_refuted : forall f_exp, good_exp f_exp -> exists c s v, curve_new f_exp ex_eval zero_data = Ret (ROk c) /\ with_market_surface (ex_env c) StickyToStrike repeated ex_tenors ex_money = Ret (ROk s) /\
  cell (su_grid s) 0 0 = Some v /\ ~ finite v.
Proof.
  intros f_exp G. rewrite (zero_curve f_exp G). apply bad_cell_ok. vm_compute. reflexivity.
Qed.
Example c179_hypotheses_met : exists d i a b x, nth_error (sd_dates d) i = Some a /\ nth_error (sd_dates d) (i + 1) = Some b /\ (instant b < instant a)%Z /\ In x (sd_dates d) /\ (instant x < instant ex_eval)%Z /\ sd_spot d = None.
Proof.
  exists (SurfaceData None [] 0 [civil 2025 3 15 0 0; civil 2024 3 14 0 0] []), 0%nat, (civil 2025 3 15 0 0), (civil 2024 3 14 0 0), (civil 2024 3 14 0 0). split; [reflexivity|]. split; [reflexivity|]. split; [vm_compute; reflexivity|]. split; [right; left; reflexivity|]. split; [vm_compute; reflexivity|reflexivity].
Qed.
(** ** A concrete surface from quotes *)
Definition ex_quotes : surface_data := quotes_of [gof_Z 100; gof_Z 200] [sixteenth; eighth].
Definition between (lo hi : Z) (x : f32) : bool := is_finite x && gle (gof_Z lo) x && gle x (gof_Z hi).
Definition ex_market_ok (c : outcome (rresult curve)) : bool :=
  match c with
  | Ret (ROk c) =>
      match with_market_surface (ex_env c) StickyToStrike ex_quotes ex_tenors ex_money with
      | Ret (ROk s) =>
          match su_times s, map_res (vol_forward (ex_env c) (gof_Z 100)) (su_dates s), quote_money ex_quotes (gof_Z 100) with
          | [t1; t2], Ret (ROk [f1; f2]), [m1; m2] => between 0 2 t1 && between 3 50 t2 && between 99 101 f1 && between 99 101 f2 && between 1 1 m1 && between 2 2 m2 && forallb (forallb (between 0 1)) (su_grid s)
          | _, _, _ => false
          end
      | _ => false
      end
  | _ => false
  end.
Lemma between_ok : forall lo hi x, (0 <= lo <= 100)%Z -> (0 <= hi <= 1000)%Z -> between lo hi x = true -> finite x /\ IZR lo <= value x <= IZR hi.
Proof.
  intros lo hi x L H B. unfold between in B. apply andb_prop in B. destruct B as [B B3]. apply andb_prop in B. destruct B as [B1 B2]. destruct (small_fin lo ltac:(lia)) as [Fl Rl]. destruct (small_fin hi ltac:(lia)) as [Fh Rh]. unfold real_of in *.
  apply (proj1 (fin_le 24 128 _ _ _ _ (conj Fl eq_refl) (conj B1 eq_refl))) in B2. apply (proj1 (fin_le 24 128 _ _ _ _ (conj B1 eq_refl) (conj Fh eq_refl))) in B3. rewrite Rl in B2. rewrite Rh in B3. split; [exact B1|]. unfold value. lra.
Qed.
Lemma times_unique : forall eval l a b, times_of eval l a -> times_of eval l b -> a = b.
Proof. intros eval l a b A. revert b. unfold times_of in *. induction A as [|x t l ts A B IH]; intros ts' C; inversion C as [|? ? ? ? D F]; subst; [reflexivity|]. f_equal; [congruence|exact (IH _ F)]. Qed.
Lemma ex_market : forall oc, ex_market_ok oc = true -> exists e s s' times fwds t m row v f, with_market_surface e StickyToStrike ex_quotes ex_tenors ex_money = Ret (ROk s) /\ times_of (ve_eval e) (sd_dates ex_quotes) times /\ tame_quotes ex_quotes (su_spot s) times 1 /\
  tame s fwds 1 /\ forwards e (sticky_spot e s) s fwds /\ vol_build e s = Ret (ROk s') /\ nth_error (su_times s) 1 = Some t /\ nth_error ex_money 1 = Some m /\ nth_error times 1 = Some t /\ nth_error (quote_money ex_quotes (su_spot s)) 1 = Some m /\
  nth_error (sd_value ex_quotes) 1 = Some row /\ nth_error row 1 = Some v /\ nth_error fwds 1 = Some f /\ finite t /\ finite m /\ value v = / 8.
Proof.
  intros oc B. unfold ex_market_ok in B. destruct oc as [[c|]| |]; [|discriminate B|discriminate B|discriminate B]. destruct (with_market_surface (ex_env c) StickyToStrike ex_quotes ex_tenors ex_money) as [[s|]| |] eqn:ES; [|discriminate B|discriminate B|discriminate B].
  destruct (su_times s) as [|t1 [|t2 [|? ?]]] eqn:ET; [discriminate B|discriminate B| |discriminate B]. destruct (map_res (vol_forward (ex_env c) (gof_Z 100)) (su_dates s)) as [[[|f1 [|f2 [|? ?]]]|]| |] eqn:EF; [discriminate B|discriminate B| |discriminate B|discriminate B|discriminate B|discriminate B].
  destruct (quote_money ex_quotes (gof_Z 100)) as [|m1 [|m2 [|? ?]]] eqn:EM; [discriminate B|discriminate B| |discriminate B]. do 6 (apply andb_prop in B; let X := fresh "B" in destruct B as [B X]).
  destruct (between_ok 0 2 _ ltac:(lia) ltac:(lia) B) as [F1 R1]. destruct (between_ok 3 50 _ ltac:(lia) ltac:(lia) B5) as [F2 R2]. destruct (between_ok 99 101 _ ltac:(lia) ltac:(lia) B4) as [F3 R3]. destruct (between_ok 99 101 _ ltac:(lia) ltac:(lia) B3) as [F4 R4].
  destruct (c178_shape _ _ _ _ _ _ ES) as (SP & MO & ST & DA & TI & LG & CG). assert (SP' : su_spot s = gof_Z 100) by (change (Some (gof_Z 100) = Some (su_spot s)) in SP; congruence). clear SP. rename SP' into SP.
  assert (DD : su_dates s = quote_dates). { assert (X : map_out (add_period ex_eval) ex_tenors = Ret quote_dates) by (vm_compute; reflexivity). apply map_out_forall2 in X. clear - X DA. change (ve_eval (ex_env c)) with ex_eval in DA. revert X. generalize quote_dates. induction DA as [|p x l m P D IH]; intros q X; inversion X as [|? y ? q' Y Z]; subst; [reflexivity|]. f_equal; [congruence|exact (IH _ Z)]. }
  assert (MM : m1 = gof_Z 1 /\ m2 = gof_Z 2). { destruct (small_fin 1 ltac:(lia)) as [G1 V1]. destruct (small_fin 2 ltac:(lia)) as [G2 V2]. unfold real_of in *.
    destruct (between_ok 1 1 _ ltac:(lia) ltac:(lia) B2) as [H1 K1]. destruct (between_ok 2 2 _ ltac:(lia) ltac:(lia) B1) as [H2 K2].
    split; apply same_float; try assumption; unfold value in *; rewrite ?V1, ?V2; lra. }
  destruct MM as [-> ->]. destruct (small_fin 1 ltac:(lia)) as [G1 V1]. destruct (small_fin 2 ltac:(lia)) as [G2 V2]. destruct (small_fin 100 ltac:(lia)) as [G100 V100]. change real_of with value in *. destruct eighth_value as (F8 & V8 & F16 & V16).
  assert (P10 : / 2 ^ 10 <= 1) by (rewrite <- Rinv_1; apply Rinv_le; lra). assert (P20' : / 2 ^ 20 <= / 1000) by (apply Rinv_le; lra).
  assert (TQ : times_of ex_eval (sd_dates ex_quotes) [t1; t2]) by (rewrite DD, ET in TI; exact TI).
  assert (OKT : Forall (fun t => finite t /\ 0 <= value t <= 2 ^ 10) [t1; t2] /\ steps (fun a b => value a + / 2 ^ 20 <= value b) [t1; t2]) by (split; [repeat first [apply Forall_nil|apply Forall_cons|split]; try assumption; lra|apply two_steps; lra]).
  assert (OKM : Forall (fun m => finite m /\ / 2 ^ 10 <= value m <= 2 ^ 10) [gof_Z 1; gof_Z 2] /\ steps (fun a b => value a * (1 + / 2 ^ 20) <= value b) [gof_Z 1; gof_Z 2]) by (split; [repeat first [apply Forall_nil|apply Forall_cons|split]; try assumption; rewrite ?V1, ?V2; lra|apply two_steps; rewrite V1, V2; lra]).
  assert (T : tame s [f1; f2] 1).
  { split; rewrite ?ET, ?LG, ?MO, ?SP; cbn [length ex_tenors ex_money].
    - split; [lia|auto].
    - split; [lia|exact CG].
    - exact OKT.
    - exact OKM.
    - repeat first [apply Forall_nil|apply Forall_cons|split]; try assumption; rewrite ?V100; lra.
    - split; [|lra]. apply Forall_forall. intros row I. apply Forall_forall. intros v J. rewrite forallb_forall in B0. pose proof (B0 row I) as Q. rewrite forallb_forall in Q. destruct (between_ok 0 1 _ ltac:(lia) ltac:(lia) (Q v J)) as [Fv Rv]. split; [exact Fv|]. apply Rabs_le. lra. }
  assert (FW : forwards (ex_env c) (sticky_spot (ex_env c) s) s [f1; f2]).
  { assert (SS : sticky_spot (ex_env c) s = gof_Z 100) by (unfold sticky_spot; rewrite ST; reflexivity). rewrite SS. apply map_res_F2. exact EF. }
  destruct (c176_builds _ _ _ _ T FW) as (s' & BU & _).
  exists (ex_env c), s, s', [t1; t2], [f1; f2], t2, (gof_Z 2), [sixteenth; eighth], eighth, f2. rewrite SP, EM, ET. split; [exact ES|]. split; [exact TQ|]. split.
  { split; rewrite ?EM.
    - split; [cbn [length]; lia|reflexivity].
    - split; [cbn; lia|]. split; [reflexivity|]. repeat constructor.
    - exact OKT.
    - exact OKM.
    - split; [|lra]. repeat first [apply Forall_nil|apply Forall_cons|split]; try assumption; rewrite ?V8, ?V16; apply Rabs_le; lra. }
  split; [exact T|]. split; [exact FW|]. split; [exact BU|]. repeat (split; [reflexivity|]). split; [exact F2|]. split; [exact G2|]. rewrite V8. lra.
Qed.
Example c178_hypotheses_met : exists e s s' times fwds t m row v f, with_market_surface e StickyToStrike ex_quotes ex_tenors ex_money = Ret (ROk s) /\ times_of (ve_eval e) (sd_dates ex_quotes) times /\ tame_quotes ex_quotes (su_spot s) times 1 /\
  tame s fwds 1 /\ forwards e (sticky_spot e s) s fwds /\ vol_build e s = Ret (ROk s') /\ nth_error (su_times s) 1 = Some t /\ nth_error ex_money 1 = Some m /\ nth_error times 1 = Some t /\ nth_error (quote_money ex_quotes (su_spot s)) 1 = Some m /\
  nth_error (sd_value ex_quotes) 1 = Some row /\ nth_error row 1 = Some v /\ nth_error fwds 1 = Some f /\ finite t /\ finite m /\ value v = / 8.
Proof. apply (ex_market (curve_new (fun _ => gof_Z 1) ex_eval zero_data)). vm_compute. reflexivity. Qed.
Print Assumptions c178_shape.
Print Assumptions c178_grid.
Print Assumptions c178_quotes.
Print Assumptions c178_round_trip.
Print Assumptions c179_unsorted.
Print Assumptions c179_stale.
Print Assumptions c179_no_spot.
Print Assumptions c179_accepted.
Print Assumptions c179_repeated_refuted.
