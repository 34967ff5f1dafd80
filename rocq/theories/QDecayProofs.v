(** QDecayProofs.v -- for C218. *)
From Coq Require Import ZArith Ascii String.
From Coq Require Import List Bool Lia Permutation.
From Flocq Require Import Core IEEE754.BinarySingleNaN.
From Verif Require Import Base FloatModel KrxModel QDateModel QInterpModel QDivModel QDivSpec QDivProps QRollProps QCurveModel QMoneyModel QBondModel QFutModel QInstModel QInstSpec QInstProps QMatchProps QVolModel QEngModel QEngSpec QEngProofs QEngFrame QEngProps QEngDeltaProps QEngThetaProps QEngThetaBackProps QLoadModel QLoadSpec QLoadProofs QLoadProps QPricerProps QGenModel QGenProofs QGenProps QGroupProofs QGroupProps QWholeModel QWholeSpec QWholeProofs QDecaySpec.
Import ListNotations.
Open Scope Z_scope.

Lemma carried_ok : forall l m d, roll_price (Some l) m d = MarketPrice (carried l (mp_dt m) d (mp_value m)) d (mp_div m).
Proof.
  intros l m d. unfold carried. destruct (Z.ltb_spec (instant (mp_dt m)) (instant d)) as [G|G]; [apply c127_forward; exact G|apply c127_back; exact G].
Qed.
Lemma in_existsb : forall k l, In k l -> existsb (Nat.eqb k) l = true.
Proof. intros k l H. apply existsb_exists. exists k. split; [exact H|apply Nat.eqb_refl]. Qed.

(** prices and dividends observe the date; [r] are the rates of exchange that are read *)
Definition watched (r : option nat) (m : market) : Prop :=
  (forall u k, mk_equity m u = Some k -> exists p, nth_error (w_prices (mk_world m)) k = Some p /\ In k (w_pobs (mk_world m)) /\
     forall j, mp_div p = Some j -> exists x, nth_error (w_dividends (mk_world m)) j = Some x /\ In j (w_dobs (mk_world m))) /\
  (forall j, r = Some j -> exists p, nth_error (w_prices (mk_world m)) j = Some p /\ mp_div p = None).
Definition rate_index (w : wiring) : option nat := match w with WFxFutures r _ _ => Some r | WSwap _ _ _ _ r => r | _ => None end.
Lemma told_none : forall w d k p, mp_div p = None -> told w d k p = p.
Proof. intros w d k p H. unfold told, the_divs. rewrite H. destruct (existsb _ _); reflexivity. Qed.
Lemma told_div : forall w d k p, mp_div (told w d k p) = mp_div p.
Proof. intros w d k p. unfold told. destruct (existsb _ _); [apply roll_div|reflexivity]. Qed.
Lemma watched_moved : forall r d m m', watched r m -> date_moved d m m' -> watched r m'.
Proof.
  intros r d m m' [E R] (S & A & B & C & V). destruct (c129_set_date _ _ _ S) as (_ & P & O & PR & DV). split.
  - intros u k K. rewrite A in K. destruct (E u k K) as (p & N & I & J). exists (told (mk_world m) d k p). split; [exact (PR k p N)|]. split; [rewrite P; exact I|]. intros j Hj. rewrite told_div in Hj. destruct (J j Hj) as (x & X & Y). destruct (DV j x X) as (x' & X' & _). exists x'. split; [exact X'|rewrite O; exact Y].
  - intros j Hj. destruct (R j Hj) as (p & N & M). exists (told (mk_world m) d j p). split; [exact (PR j p N)|]. rewrite told_div. exact M.
Qed.
Lemma equity_moved : forall r d m m' u, watched r m -> date_moved d m m' -> match equity_view m u, equity_view m' u with None, None => True | Some x, Some x' => stock_moved d x x' | _, _ => False end.
Proof.
  intros r d m m' u [E R] (S & A & B & C & V). destruct (c129_set_date _ _ _ S) as (_ & P & O & PR & DV). unfold equity_view, equity. rewrite A. destruct (mk_equity m u) as [k|] eqn:K; [|exact I].
  destruct (E u k K) as (p & N & Ob & J). rewrite N, (PR k p N). cbn [option_map]. unfold price_view. rewrite told_div. unfold told. rewrite (in_existsb _ _ Ob). unfold the_divs. destruct (mp_div p) as [j|] eqn:MD.
  - destruct (J j eq_refl) as (x & X & Y). destruct (DV j x X) as (x' & X' & Q & U & _). rewrite X. rewrite carried_ok. cbn [mp_value mp_dt]. unfold div_at. rewrite X, X'. cbn [stock_moved]. exists x'. split; [exact (U Y)|reflexivity].
  - cbn [div_at stock_moved]. reflexivity.
Qed.
Lemma rate_moved : forall w d m m' j, watched (rate_index w) m -> date_moved d m m' -> rate_index w = Some j -> rate_view m' j = rate_view m j.
Proof.
  intros w d m m' j [E R] (S & A & B & C & V) J. destruct (c129_set_date _ _ _ S) as (_ & P & O & PR & DV). destruct (R j J) as (p & N & M). unfold rate_view. rewrite N, (PR j p N), told_none by exact M. cbn [option_map]. unfold price_view. rewrite M. reflexivity.
Qed.
Lemma view_moved : forall w d m m', watched (rate_index w) m -> date_moved d m m' -> moved_to d (view_of m w) (view_of m' w).
Proof.
  intros w d m m' W D. pose proof (fun u => equity_moved _ d m m' u W D) as EQ. pose proof (fun j => rate_moved w d m m' j W D) as RT. destruct D as (S & A & B & C & V). pose proof (proj1 (c129_set_date _ _ _ S)) as DT.
  unfold moved_to. destruct w as [a f p|e c b|e v a c b q|a c|j u f|a b f p j|e|]; cbn [view_of vw_date vw_curves vw_equity vw_vol vw_rate vw_quanto vw_fixings rate_index] in *; rewrite ?C; split; try exact DT;
    (split; [try reflexivity; unfold opt_curve; try (destruct f); rewrite ?C; reflexivity|]); (split; [try reflexivity; try (apply RT; reflexivity)|]);
    try (do 3 (split; [reflexivity|]); first [exact I|apply EQ]).
  - do 2 (split; [reflexivity|]). split; [|apply EQ]. unfold vol_view. rewrite V. destruct (mk_vol m v); reflexivity.
  - destruct j as [j|]; [apply RT; reflexivity|reflexivity].
Qed.
(** whether any instrument matures in time *)
Lemma near_dec : forall cx d, (exists i, near cx d i) \/ forall i, ~ near cx d i.
Proof.
  intros cx d. destruct (c171_upto (cx_insts cx) d ["Cash"; "Stock"]%string) as [_ T]. set (l := maturing_upto _ _ _) in *. clearbody l.
  assert (IN : forall i, In i l <-> near cx d i) by (intro i; rewrite T; unfold near, counted; tauto). destruct l as [|i l]; [right|left; exists i; apply IN; left; reflexivity]. intros i Q. apply (IN i). exact Q.
Qed.
(** the dates an earlier round went through *)
Lemma views_round : forall cx s s' eval e U m m' w, theta_round cx s s' eval e U m m' -> watched (rate_index w) m ->
  watched (rate_index w) m' /\ exists es, (es = [] \/ es = [e; eval]) /\ moved_through es (view_of m w) (view_of m' w).
Proof.
  intros cx s s' eval e U m m' w [[_ ->]|(later & years & D1 & D2 & _)] W.
  - split; [exact W|]. exists []. split; [left; reflexivity|reflexivity].
  - pose proof (watched_moved _ _ _ _ W D1) as W1. split; [exact (watched_moved _ _ _ _ W1 D2)|]. exists [e; eval]. split; [right; reflexivity|].
    exists (view_of later w). split; [exact (view_moved w e m later W D1)|]. exists (view_of m' w). split; [exact (view_moved w eval later m' W1 D2)|reflexivity].
Qed.

(** ** The stages *)
Lemma cash_after : forall cx, keeps (fun x => x <> CashCell) (after_thetas cx).
Proof.
  intro cx. unfold after_thetas. repeat (apply keeps_andthen; [apply keeps_whenever|intros _]); [| | | | | |apply keeps_whenever].
  - apply (keeps_more _ (greek_cell Vega)); [intros x H ->; exact H|apply keeps_vega].
  - apply (keeps_more _ (greek_cell Rho)); [intros x H ->; exact H|apply keeps_rho].
  - apply (keeps_more _ (greek_cell DivDelta)); [intros x H ->; exact H|apply keeps_div].
  - apply (keeps_more _ (ladder_cell VegaLadder)); [intros x H ->; exact H|apply keeps_vega_structure].
  - apply (keeps_more _ (ladder_cell RhoLadder)); [intros x H ->; exact H|apply keeps_rho_structure].
  - apply (keeps_more _ (ladder_cell DivLadder)); [intros x H ->; exact H|apply keeps_div_structure].
  - apply (keeps_more _ matrix_cell); [intros x H ->; exact H|apply keeps_matrix].
Qed.
Lemma theta_stage : forall cx m s s', with_instruments m (cx_insts cx) = ROk s -> NoDup (map code (cx_insts cx)) -> (forall k, In k (cx_keys cx) <-> In k (map code (cx_insts cx))) -> cf_npv (cx_config cx) = true -> cf_theta (cx_config cx) = true ->
  runs (calculate cx) s s' -> exists s1 s2, st_market s1 = m /\ runs (set_thetas cx) s1 s2 /\ (forall i v, reported_theta s2 i v -> reported_theta s' i v) /\
    forall i un fs, reported s1 i (fun c => ca_unit c = un /\ ca_cash c = Some fs) -> reported s' i (fun c => ca_unit c = un /\ ca_cash c = Some fs).
Proof.
  intros cx m s s' W ND K N TH H. apply coded_nodup in ND. destruct (with_instruments_ok _ _ _ W) as (_ & M & A & _ & R & _). unfold runs, calculate in H. rewrite N, TH in H. cbn [whenever] in H. step H u s1 E1. destruct u.
  destruct (npv_stage cx m s s1) as (M1 & A1 & O1 & V1).
  { rewrite A. exact ND. } { exact M. } { intro k. rewrite A, (K k), in_map_iff. split; intros (x & X & Y); exists x; auto. } { exact E1. }
  step H u0 s2 E2. destruct u0.
  assert (M2 : st_market s2 = m). { destruct (cf_fx (cx_config cx)); cbn [whenever] in E2; [|apply done_ok in E2; destruct E2 as [_ ->]; exact M1]. destruct (c183_exposure cx s1 s2) as (X1 & X2 & _); [rewrite A1, A; exact ND|exact E2|]. congruence. }
  step H u0 s3 E3. destruct u0.
  assert (M3 : st_market s3 = m).
  { destruct (cf_delta (cx_config cx)); cbn [whenever] in E3; [|apply done_ok in E3; destruct E3 as [_ ->]; exact M2]. step E3 u0 sx Ex. destruct u0. destruct (c184_linear cx s2 sx ND Ex) as (Y1 & _). destruct (c184_delta cx sx s3 ND E3) as (Y2 & _). congruence. }
  step H u0 s4 E4. destruct u0. exists s3, s4. split; [exact M3|]. split; [exact E4|]. split.
  - intros i v (c & C1 & C2). assert (O : only (fun _ x => x <> ThetaCell) s4 s') by exact (keeps_after_thetas cx s4 _ s' H). destruct (only_reads _ _ _ _ _ O C1) as (c' & C1' & _ & S). exists c'. split; [exact C1'|]. rewrite <- C2. apply (S ThetaCell). intro Q. apply Q. reflexivity.
  - intros i un fs (c & C1 & C2 & C3). pose proof (keeps_thetas cx s3 _ s4 E4) as OT. destruct (only_reads _ _ _ _ _ OT C1) as (c' & C1' & U' & S').
    assert (O : only (fun _ x => x <> CashCell) s4 s') by exact (cash_after cx s4 _ s' H). destruct (only_reads _ _ _ _ _ O C1') as (c2 & C12 & U2 & S2). exists c2. split; [exact C12|]. split; [congruence|].
    rewrite <- C3. transitivity (ca_cash c'); [apply (S2 CashCell); intro Q; apply Q; reflexivity|]. apply (S' CashCell). discriminate.
Qed.
(** [in_engine], with the order of the cash flows *)
Lemma in_engine_cash : forall fo se is r i, may fo se is (ROk r) -> NoDup (map code is) -> In i is -> exists sh l w cx s s', (forall x, Permutation (sh x) x) /\ (forall x, Permutation (cx_cash cx x) x) /\ (forall x, Permutation (cx_coupons cx x) x) /\
  with_parameter_data (se_exp se) (se_eval se) (se_data se) (se_match se) (se_sticky se) (cf_vega_tenors (se_config se)) (cf_moneyness (se_config se)) sh is = Ret (ROk l) /\
  create_pricer (se_analytic se) l (se_match se) i = Ret (ROk w) /\ with_instruments (ld_market l) (cx_insts cx) = ROk s /\ runs (calculate cx) s s' /\ r = st_results s' /\ cx_insts cx = is /\ cx_config cx = se_config se /\ cx_pricer cx (code i) = Some (pricer_of fo w) /\ (forall k, In k (cx_keys cx) <-> In k (map code is)).
Proof.
  intros fo se is r i (o & OK & H) N I. destruct (group_steps _ _ _ _ _ H) as (s & l & ws & s' & W & L & P & R & E). destruct (c198_each (se_match se) is (se_analytic se) l ws P) as [F A]. destruct (In_nth_error _ _ I) as [j J]. destruct (A j i J) as (w & CW & NW).
  exists (or_shuffle o), l, w. eexists. exists s, s'. split; [exact (ok_shuffle _ _ _ OK)|]. split; [|split; [|split; [exact L|split; [exact CW|split; [|split; [exact R|]]]]]]; [exact (ok_cash _ _ _ OK)|exact (ok_coupons _ _ _ OK)|exact W|]. split; [exact E|]. split; [reflexivity|]. split; [reflexivity|]. split; [cbn [cx_pricer]; apply pricer_map_at; [rewrite F; exact N|exact (nth_error_In _ _ NW)]|exact (proj2 (ok_keys _ _ _ OK))].
Qed.
(** everything that is read observes the date in the market that was loaded *)
Lemma loaded_watched : forall se sh is l i w, (forall x, Permutation (sh x) x) -> with_parameter_data (se_exp se) (se_eval se) (se_data se) (se_match se) (se_sticky se) (cf_vega_tenors (se_config se)) (cf_moneyness (se_config se)) sh is = Ret (ROk l) ->
  ~ asked is dummy -> In i is -> create_pricer (se_analytic se) l (se_match se) i = Ret (ROk w) -> watched (rate_index w) (ld_market l).
Proof.
  intros se sh is l i w SH L D I C. destruct (c196_observed _ _ _ _ _ _ _ _ _ SH l L) as [PO DO]. destruct (c196_prices _ _ _ _ _ _ _ _ _ l L) as (_ & PR & PN & _). destruct (c196_dividends _ _ _ _ _ _ _ _ _ l L) as (DV & _ & _). split.
  - intros u k K. destruct (asked_dec is u) as [AU|AU]; [|exfalso; rewrite (PN u AU) in K; discriminate K]. destruct (PR u AU) as (s & p & _ & EQ & _ & _ & MD). unfold equity in EQ. rewrite K in EQ. exists p. split; [exact EQ|].
    assert (SQ : forall A (v : list A) n x, nth_error v n = Some x -> In n (seq 0 (List.length v))) by (intros A v n x Q; apply in_seq; split; [lia|]; apply nth_error_Some; congruence).
    split; [apply (Permutation_in _ (Permutation_sym PO)), (SQ _ _ _ _ EQ)|]. intros j J. rewrite MD in J. destruct (da_div (se_data se) u) as [b|] eqn:DB.
    + destruct (DV u AU) as (j' & x & J1 & J2 & _); [congruence|]. assert (j' = j) by congruence. subst j'. exists x. split; [exact J2|]. apply (Permutation_in _ (Permutation_sym DO)), (SQ _ _ _ _ J2).
    + destruct (c196_dividends _ _ _ _ _ _ _ _ _ l L) as (_ & NV & _). rewrite (NV u (or_intror DB)) in J. discriminate J.
  - intros j J. pose proof (c198_right _ _ _ _ _ _ _ _ _ _ _ L i w D I C) as RP. unfold right_pricer in RP.
    assert (RT : forall x, fx_asked is x -> ld_fx l x = Some j -> exists p, nth_error (w_prices (mk_world (ld_market l))) j = Some p /\ mp_div p = None).
    { intros x A Jx. destruct (c196_rates _ _ _ _ _ _ _ _ _ l L x A) as (r & j' & _ & Q & N). assert (j' = j) by congruence. subst j'. eexists. split; [exact N|reflexivity]. }
    destruct (in_kind i) as [us uc|issuer t r x|  |tag|t fc x fx|uc fx|ty u uc settled q|u|] eqn:K; destruct w as [a f p|e c b|e v a c b q'|a c|j0 u' f|a b f p j0|e|]; try contradiction RP; cbn [rate_index] in J; try discriminate J.
    + destruct RP as (A1 & B1 & X1 & Y1). subst j0. destruct fx as [y|]; [|discriminate Y1]. destruct Y1 as [Y1 _]. apply (RT y); [exists i; split; [exact I|unfold fx_codes; rewrite K; left; reflexivity]|congruence].
    + apply some_inj in J. subst j0. destruct RP as (J1 & _). apply (RT fx); [exists i; split; [exact I|unfold fx_codes; rewrite K; left; reflexivity]|exact J1].
Qed.
(** a view carried through dates: what stays, and what becomes of the stock *)
Lemma through_view : forall es v v', moved_through es v v' -> vw_date v' = last_date (vw_date v) es /\ vw_curves v' = vw_curves v /\ vw_rate v' = vw_rate v /\ vw_quanto v' = vw_quanto v /\ vw_fixings v' = vw_fixings v /\
  option_map fst (vw_vol v') = option_map fst (vw_vol v) /\ match vw_equity v, vw_equity v' with None, None => True | Some x, Some x' => stock_through es x x' | _, _ => False end.
Proof.
  induction es as [|e es IH]; intros v v' H; cbn [moved_through] in H.
  - subst v'. do 6 (split; [reflexivity|]). destruct (vw_equity v); [reflexivity|exact I].
  - destruct H as (v1 & (A1 & A2 & A3 & A4 & A5 & A6 & A7) & H). destruct (IH v1 v' H) as (B1 & B2 & B3 & B4 & B5 & B6 & B7).
    split. { rewrite B1, A1. clear. unfold last_date. destruct es as [|f es]; [reflexivity|]. cbn [last]. revert f. induction es as [|g es IH]; intro f; [reflexivity|]. cbn [last]. apply IH. }
    do 5 (split; [congruence|]). destruct (vw_equity v) as [x|], (vw_equity v1) as [x1|], (vw_equity v') as [x'|]; try contradiction; [|exact I]. exists x1. split; assumption.
Qed.
(** without dividends a stock stays *)
Lemma stock_stays : forall es s t x, stock_through es (s, t, None) x -> x = (s, t, None).
Proof. induction es as [|e es IH]; intros s t x H; cbn [stock_through] in H; [exact H|]. destruct H as (x1 & H1 & H2). cbn [stock_moved] in H1. subst x1. exact (IH s t x H2). Qed.
