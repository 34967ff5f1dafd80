(** QWholeProofs.v -- what the pricer of an instrument reads in a loaded engine. *)
From Coq Require Import ZArith Ascii String.
From Coq Require Import List Bool Lia.
From Flocq Require Import Core IEEE754.BinarySingleNaN.
From Verif Require Import Base FloatModel KrxModel QDateModel QInterpModel QDivModel QCurveModel QMoneyModel QBondModel QSwapModel QSwapProps QFutModel QInstModel QInstSpec QInstProps QMatchProps QVolModel QEngModel QEngSpec QEngProofs QEngFrame QEngProps QEngDeltaProps QLoadModel QLoadSpec QLoadProofs QLoadProps QPricerProps QGenModel QGenProofs QGroupProofs QGroupProps QWholeModel QWholeSpec.
Import ListNotations.
Open Scope Z_scope.

(** ** Exposures in a whole calculation *)
Definition after_fx (cx : context) : act unit :=
  let* _ := whenever (cf_delta (cx_config cx)) (let* _ := preprocess_delta_gamma cx in set_delta_gamma cx) in after_delta cx.
Lemma keeps_after_fx : forall cx, keeps (fun x => x <> FxCell) (after_fx cx).
Proof.
  intro cx. unfold after_fx, after_delta. repeat (apply keeps_andthen; [apply keeps_whenever|intros _]); [| | | | | | | |apply keeps_whenever].
  - apply (keeps_more _ delta_cell); [intros x H ->; exact H|]. apply keeps_andthen; [apply keeps_preprocess|intros _; apply keeps_delta].
  - apply (keeps_more _ (eq ThetaCell)); [intros x <-; discriminate|apply keeps_thetas].
  - apply (keeps_more _ (greek_cell Vega)); [intros x H ->; exact H|apply keeps_vega].
  - apply (keeps_more _ (greek_cell Rho)); [intros x H ->; exact H|apply keeps_rho].
  - apply (keeps_more _ (greek_cell DivDelta)); [intros x H ->; exact H|apply keeps_div].
  - apply (keeps_more _ (ladder_cell VegaLadder)); [intros x H ->; exact H|apply keeps_vega_structure].
  - apply (keeps_more _ (ladder_cell RhoLadder)); [intros x H ->; exact H|apply keeps_rho_structure].
  - apply (keeps_more _ (ladder_cell DivLadder)); [intros x H ->; exact H|apply keeps_div_structure].
  - apply (keeps_more _ matrix_cell); [intros x H ->; exact H|apply keeps_matrix].
Qed.
Lemma fx_calculated : forall cx m s s', with_instruments m (cx_insts cx) = ROk s -> NoDup (map code (cx_insts cx)) -> (forall k, In k (cx_keys cx) <-> In k (map code (cx_insts cx))) -> cf_npv (cx_config cx) = true -> cf_fx (cx_config cx) = true ->
  runs (calculate cx) s s' ->
  forall i, In i (cx_insts cx) -> exists p res e, cx_pricer cx (code i) = Some p /\ pr_result p m i = Ret (ROk res) /\ pr_fx p m i (nr_npv res) = Ret (ROk e) /\ reported s' i (fun c => ca_fx c = Some e).
Proof.
  intros cx m s s' W ND K N FX H i I. assert (II := I). apply coded_nodup in ND. destruct (with_instruments_ok _ _ _ W) as (_ & M & A & _ & R & _). unfold runs in H. rewrite calculate_split in H. rewrite N in H. cbn [whenever] in H. step H u0 s1 E1. destruct u0.
  destruct (npv_stage cx m s s1) as (M1 & A1 & O1 & V1).
  { rewrite A. exact ND. } { exact M. } { intro k. rewrite A, (K k), in_map_iff. split; intros (x & X & Y); exists x; auto. } { exact E1. }
  rewrite A in *. destruct (V1 i I) as (res & (p & PR1 & PR2) & (c & E & NR & _)). exists p, res.
  unfold after_prices in H. rewrite FX in H. cbn [whenever] in H. step H u0 s2 E2. destruct u0. change (after_fx cx s2 = Ret (ROk tt, s')) in H.
  destruct (c183_exposure cx s1 s2) as (X1 & X2 & X3); [rewrite A1; exact ND|exact E2|]. destruct (X3 i) as (p' & x & e & P' & RX & PF & RE); [rewrite A1; exact I|apply K; apply in_map; exact I|].
  assert (p' = p) by congruence. subst p'. assert (x = nr_npv res). { apply (reported_fun _ _ _ _ RX). exists c. split; [exact E|exists res; auto]. } subst x. rewrite M1 in PF. exists e. split; [exact PR1|]. split; [exact PR2|]. split; [exact PF|].
  destruct RE as (c2 & E2' & F2). destruct (only_reads _ _ _ _ _ (keeps_after_fx cx s2 (ROk tt) s' H) E2') as (c3 & E3 & _ & S3). exists c3. split; [exact E3|]. pose proof (S3 FxCell (fun Q => Q eq_refl)) as S. cbn in S. congruence.
Qed.

(** ** What is read *)
Section Read.
Context (se : setup) (sh : list nat -> list nat) (is : list instrument) (l : loaded).
Hypothesis L : with_parameter_data (se_exp se) (se_eval se) (se_data se) (se_match se) (se_sticky se) (cf_vega_tenors (se_config se)) (cf_moneyness (se_config se)) sh is = Ret (ROk l).
Let m := ld_market l.
Lemma date_read : w_date (mk_world m) = se_eval se.
Proof using L. destruct (c196_prices _ _ _ _ _ _ _ _ _ l L) as (D & _). exact D. Qed.
Lemma curve_read : forall n name, mk_curve m n <> None -> name = Some n -> exists c, mk_curve m n = Some c /\ curve_for se name c.
Proof using L. intros n name H ->. destruct (mk_curve m n) as [c|] eqn:E; [|contradiction H; reflexivity]. exists c. split; [reflexivity|]. exists n. split; [reflexivity|]. apply (c196_curves _ _ _ _ _ _ _ _ _ l L) in E. exact (proj2 E). Qed.
Lemma stock_read : forall u, mk_equity m u <> None -> exists s dv, equity_view m u = Some (s, se_eval se, dv) /\ stock_for se u s dv.
Proof using L.
  intros u H. destruct (asked_dec is u) as [A|A]; [|exfalso; destruct (c196_prices _ _ _ _ _ _ _ _ _ l L) as (_ & _ & N & _); exact (H (N u A))].
  destruct (equity_read (se_exp se) (se_eval se) (se_data se) (se_match se) (se_sticky se) (cf_vega_tenors (se_config se)) (cf_moneyness (se_config se)) is sh l L u A) as (v & dv & E & S & V). exists v, dv. split; [exact E|]. split; [exact S|exact V].
Qed.
Lemma surface_read : forall u, vol_asked is u -> exists s e, vol_view m u = Some (s, Some e) /\ surface_for se u s.
Proof using L.
  intros u A. destruct (c196_surfaces _ _ _ _ _ _ _ _ _ l L) as [S _]. destruct (S u A) as (v & e & V & C & B & E & F). exists (vt_surface v), e. split; [unfold vol_view; fold m in V, E; rewrite V; cbn [option_map]; rewrite E; reflexivity|].
  fold m in E. rewrite env_view in E. destruct (mk_curve m (vt_coll v)) as [cc|] eqn:E1; [|discriminate E]. destruct (mk_curve m (vt_borrow v)) as [cb|] eqn:E2; [|discriminate E].
  destruct (stock_read u) as (s & dv & EQ & ST). { intro Q. unfold equity_view, equity in E. rewrite Q in E. discriminate E. } rewrite EQ in E. apply some_inj in E. subst e. eexists. split; [|split; [|split; [|split; [|exact F]]]]; cbn [ve_coll ve_borrow ve_eval ve_price ve_div].
  - destruct (curve_read (vt_coll v) (mp_collateral (se_match se) u)) as (c & X & Y); [congruence|exact C|]. assert (c = cc) by congruence. subst c. exact Y.
  - destruct (curve_read (vt_borrow v) (mp_borrowing (se_match se) u)) as (c & X & Y); [congruence|exact B|]. assert (c = cb) by congruence. subst c. exact Y.
  - exact date_read.
  - exact ST.
Qed.
Lemma index_read : forall x f p, indexed (se_match se) (se_data se) x f p -> match f with Some n => mk_curve m n <> None | None => True end -> index_for se x (opt_curve m f) p.
Proof using L.
  intros [ix|] f p H W; cbn in *; [|destruct H as [-> ->]; auto]. destruct H as (n & c & -> & N & -> & P). destruct (curve_read n _ W N) as (k & K1 & K2). exists k, c. cbn [opt_curve]. auto.
Qed.
Lemma rate_read : forall x j, fx_asked is x -> ld_fx l x = Some j -> exists v, rate_view m j = Some (v, se_eval se, None) /\ market_fx (da_fx (se_data se)) x = ROk v.
Proof using L.
  intros x j A J. destruct (c196_rates _ _ _ _ _ _ _ _ _ l L x A) as (r & j' & R & Q & N). assert (j' = j) by congruence. subst j'. exists r. split; [|exact R]. unfold rate_view. fold m in N. rewrite N. reflexivity.
Qed.
End Read.

Lemma sees_it : forall se sh is l i w, with_parameter_data (se_exp se) (se_eval se) (se_data se) (se_match se) (se_sticky se) (cf_vega_tenors (se_config se)) (cf_moneyness (se_config se)) sh is = Ret (ROk l) ->
  ~ asked is dummy -> In i is -> create_pricer (se_analytic se) l (se_match se) i = Ret (ROk w) -> sees se i (view_of (ld_market l) w).
Proof.
  intros se sh is l i w L D I C. pose proof (created_wired _ _ _ _ _ C) as W. pose proof (c198_right _ _ _ _ _ _ _ _ _ _ _ L i w D I C) as R.
  pose proof (date_read se sh is l L) as DA. pose proof (curve_read se sh is l L) as CR. pose proof (stock_read se sh is l L) as SR. pose proof (index_read se sh is l L) as IR. pose proof (rate_read se sh is l L) as RR.
  unfold right_pricer in R. destruct (in_kind i) as [us uc|issuer t r x|  |tag|t fc x fx|uc fx|ty u uc settled q|u|] eqn:K; destruct w as [a f p|e c b|e v a c b q'|a c|j u' f|a b f p j|e|]; try contradiction R; cbn [view_of]; rewrite DA; cbn in W.
  - destruct R as (u & us' & -> & -> & C1 & B1). destruct W as (W1 & W2 & W3). destruct (CR c _ W2 C1) as (cc & E1 & F1). destruct (CR b _ W3 B1) as (cb & E2 & F2). destruct (SR u W1) as (s & dv & E3 & F3). rewrite E1, E2, E3. exact (sees_futures se i u us' uc cc cb s dv K F1 F2 F3).
  - destruct R as (A1 & X1). destruct W as (W1 & W2). destruct (CR a _ W1 A1) as (ca & E1 & F1). rewrite E1. exact (sees_bond se i issuer t r x ca _ p K F1 (IR x f p X1 W2)).
  - destruct R as (A1 & B1 & X1 & Y1). destruct W as (W1 & W2 & W3). destruct (CR a _ W1 A1) as (ca & E1 & F1). destruct (CR b _ W2 B1) as (cb & E2 & F2). rewrite E1, E2. apply (sees_swap se i t fc x fx ca cb _ p (option_map (fun p => fst (fst p)) (match j with Some n => rate_view (ld_market l) n | None => None end)) _ K F1 F2 (IR x f p X1 W3)); [|reflexivity].
    destruct fx as [y|]; [|subst j; reflexivity]. destruct Y1 as [Y1 Y2]. destruct j as [n|]; [|contradiction Y2; reflexivity]. destruct (RR y n) as (v & V1 & V2); [exists i; split; [exact I|unfold fx_codes; rewrite K; left; reflexivity]|congruence|]. rewrite V1. exists v. split; [reflexivity|exact V2].
  - destruct R as (J1 & A1 & B1). destruct W as (W1 & W2). destruct (CR u' _ W1 A1) as (ca & E1 & F1). destruct (CR f _ W2 B1) as (cb & E2 & F2). rewrite E1, E2. destruct (RR fx j) as (v & V1 & V2); [exists i; split; [exact I|unfold fx_codes; rewrite K; left; reflexivity]|exact J1|]. rewrite V1.
    apply (sees_fx_futures se i uc fx ca cb v _ K F1 F2). exists v. split; [reflexivity|exact V2].
  - destruct R as (-> & -> & -> & A1 & C1 & B1 & Q1 & Q2). destruct W as (W1 & W2 & W3 & W4). destruct (CR a _ W2 A1) as (ca & E1 & F1). destruct (CR c _ W3 C1) as (cc & E2 & F2). destruct (CR b _ W4 B1) as (cb & E3 & F3). destruct (SR u W1) as (s & dv & E4 & F4).
    destruct (surface_read se sh is l L u) as (sf & e & E5 & F5); [exists i; split; [exact I|unfold vol_underlyings; rewrite K; left; reflexivity]|]. rewrite E1, E2, E3, E4, E5. apply (sees_option se i ty u uc q ca cc cb s dv sf (Some e) q' K F1 F2 F3 F4 F5). split; [exact Q1|exact Q2].
  - subst e. destruct (SR (code i) W) as (s & dv & E1 & F1). rewrite E1. exact (sees_stock se i u s dv K F1).
  - exact (sees_cash se i K).
Qed.
Lemma ret_inj : forall A (x y : A), Ret x = Ret y -> x = y. Proof. congruence. Qed.

(** ** The data give one of each *)
Section One.
Context (se : setup).
Lemma curve_for_one : forall n c c', curve_for se n c -> curve_for se n c' -> c = c'.
Proof using. intros n c c' (k & K & A) (k' & K' & A'). assert (k' = k) by congruence. subst k'. exact (curve_from_one _ _ _ _ _ _ A A'). Qed.
Lemma stock_for_one : forall u s dv s' dv', stock_for se u s dv -> stock_for se u s' dv' -> s = s' /\ dv = dv'.
Proof using.
  intros u s dv s' dv' [A B] [A' B']. split; [congruence|]. destruct dv as [x|], dv' as [x'|].
  - f_equal. exact (div_from_one _ _ _ _ _ B B').
  - destruct B as (v & p & B & _). congruence.
  - destruct B' as (v & p & B' & _). congruence.
  - reflexivity.
Qed.
Lemma env_for_one : forall u e e', curve_for se (mp_collateral (mp se) u) (ve_coll e) -> curve_for se (mp_borrowing (mp se) u) (ve_borrow e) -> ve_eval e = se_eval se -> stock_for se u (ve_price e) (ve_div e) ->
  curve_for se (mp_collateral (mp se) u) (ve_coll e') -> curve_for se (mp_borrowing (mp se) u) (ve_borrow e') -> ve_eval e' = se_eval se -> stock_for se u (ve_price e') (ve_div e') -> e = e'.
Proof using.
  intros u [a b c d f] [a' b' c' d' f'] A B C D A' B' C' D'. cbn in *. destruct (stock_for_one _ _ _ _ _ D D') as [-> ->]. rewrite (curve_for_one _ _ _ A A'), (curve_for_one _ _ _ B B'). congruence.
Qed.
Lemma surface_for_one : forall u s s', surface_for se u s -> surface_for se u s' -> s = s'.
Proof using.
  intros u s s' (e & A & B & C & D & V) (e' & A' & B' & C' & D' & V'). assert (e = e') by exact (env_for_one u e e' A B C D A' B' C' D'). subst e'. exact (vol_from_one _ _ _ _ _ _ _ _ V V').
Qed.
Lemma index_for_one : forall x f p f' p', index_for se x f p -> index_for se x f' p' -> f = f' /\ p = p'.
Proof using.
  intros [ix|] f p f' p' H H'; cbn in *; [|destruct H, H'; split; congruence]. destruct H as (c & q & -> & A & -> & B). destruct H' as (c' & q' & -> & A' & -> & B'). rewrite (curve_for_one _ _ _ A A'). split; congruence.
Qed.
Lemma rate_for_one : forall x r r', rate_for se x r -> rate_for se x r' -> r = r'.
Proof using. intros [y|] r r' H H'; cbn in *; [|congruence]. destruct H as (v & -> & A). destruct H' as (v' & -> & A'). congruence. Qed.
Lemma quanto_for_one : forall i u uc q q', quanto_for se i u uc q -> quanto_for se i u uc q' -> q = q'.
Proof using.
  intros i u uc q q' [A B] [A' B']. destruct (ccy_cases uc (ccy i)) as [[_ E]|[_ E]].
  - rewrite (A E), (A' E). reflexivity.
  - destruct (B E) as (v & r & -> & X & Y). destruct (B' E) as (v' & r' & -> & X' & Y'). congruence.
Qed.
End One.

(** ** What the pricer of an option reads after the price of its underlying is set *)
Lemma shifted_it : forall se sh is l i w ty u uc q, with_parameter_data (se_exp se) (se_eval se) (se_data se) (se_match se) (se_sticky se) (cf_vega_tenors (se_config se)) (cf_moneyness (se_config se)) sh is = Ret (ROk l) ->
  ~ asked is dummy -> In i is -> create_pricer (se_analytic se) l (se_match se) i = Ret (ROk w) -> in_kind i = KOption ty u uc false q ->
  exists fund coll borrow s dv f qv, curve_for se (mp_funding (se_match se) (ccy i)) fund /\ curve_for se (mp_collateral (se_match se) u) coll /\ curve_for se (mp_borrowing (se_match se) u) borrow /\ stock_for se u s dv /\
    surface_for se u f /\ quanto_for se i u uc qv /\ option_map mp_value (equity (ld_market l) u) = Some s /\
    (exists e, view_of (ld_market l) w = View (se_eval se) [Some fund; Some coll; Some borrow] (Some (s, se_eval se, dv)) (Some (f, e)) None qv None) /\
    forall x m', price_set (ld_market l) u x m' -> exists e, view_of m' w = View (se_eval se) [Some fund; Some coll; Some borrow] (Some (x, se_eval se, dv)) (Some (f, e)) None qv None.
Proof.
  intros se sh is l i w ty u uc q L D I C K. pose proof (created_wired _ _ _ _ _ C) as W. pose proof (c198_right _ _ _ _ _ _ _ _ _ _ _ L i w D I C) as R.
  pose proof (date_read se sh is l L) as DA. pose proof (curve_read se sh is l L) as CR. pose proof (stock_read se sh is l L) as SR.
  unfold right_pricer in R. rewrite K in R. destruct w as [a f p|e c b|e v a c b q'|a c|j u' f|a b f p j|e|]; try contradiction R. cbn in W.
  destruct R as (-> & -> & _ & A1 & C1 & B1 & Q1 & Q2). destruct W as (W1 & W2 & W3 & W4). destruct (CR a _ W2 A1) as (ca & E1 & F1). destruct (CR c _ W3 C1) as (cc & E2 & F2). destruct (CR b _ W4 B1) as (cb & E3 & F3). destruct (SR u W1) as (s & dv & E4 & F4).
  destruct (surface_read se sh is l L u) as (sf & e & E5 & F5); [exists i; split; [exact I|unfold vol_underlyings; rewrite K; left; reflexivity]|].
  exists ca, cc, cb, s, dv, sf, q'. split; [exact F1|]. split; [exact F2|]. split; [exact F3|]. split; [exact F4|]. split; [exact F5|]. split; [split; [exact Q1|exact Q2]|]. split; [|split].
  - unfold equity_view in E4. destruct (equity (ld_market l) u) as [p|]; [|discriminate E4]. cbn [option_map] in *. unfold price_view in E4. congruence.
  - exists (Some e). cbn [view_of]. rewrite DA, E1, E2, E3, E4, E5. reflexivity.
  - intros x m' PS. pose proof (set_equity _ _ _ _ _ _ _ _ _ _ L u x m' u PS) as EQ. rewrite String.eqb_refl, E4 in EQ. destruct PS as (j & p & _ & _ & _ & WD & _ & _ & _ & _ & _ & MC & MV).
    unfold vol_view in E5. destruct (mk_vol (ld_market l) u) as [ve|] eqn:EV; [|discriminate E5]. exists (env_of m' u ve). cbn [view_of]. rewrite WD, DA, MC, E1, E2, E3, EQ. unfold vol_view. rewrite MV, EV. cbn [option_map] in *. cbn. f_equal. congruence.
Qed.
