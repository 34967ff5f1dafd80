(** QRiskProofs.v -- the stages of a calculation and the markets they see. *)
From Coq Require Import ZArith Ascii String.
From Coq Require Import List Bool Lia.
From Flocq Require Import Core IEEE754.BinarySingleNaN.
From Verif Require Import Base FloatModel KrxModel QDateModel QInterpModel QDivModel QCurveModel QMoneyModel QBondModel QSwapModel QSwapProps QFutModel QInstModel QInstSpec QInstProps QMatchProps QVolModel QEngModel QEngSpec QEngProofs QEngFrame QEngProps QEngDeltaProps QEngBump QEngBumpProps QLoadModel QLoadSpec QLoadProofs QLoadProps QPricerProps QGenModel QGenProofs QGenProps QGroupProofs QGroupProps QWholeModel QWholeSpec QWholeProofs QRiskSpec.
Import ListNotations.
Open Scope Z_scope.

(** without theta, vega finds the market as it was loaded *)
Lemma stages : forall cx m s s', with_instruments m (cx_insts cx) = ROk s -> NoDup (map code (cx_insts cx)) -> (forall k, In k (cx_keys cx) <-> In k (map code (cx_insts cx))) -> cf_npv (cx_config cx) = true -> cf_theta (cx_config cx) = false ->
  runs (calculate cx) s s' -> exists s1 s2 s3 s4, st_market s1 = m /\
    runs (whenever (cf_vega (cx_config cx)) (set_vega cx)) s1 s2 /\ runs (whenever (cf_rho (cx_config cx)) (set_rho cx)) s2 s3 /\ runs (whenever (cf_div (cx_config cx)) (set_div_delta cx)) s3 s4 /\
    after_vega cx s2 = Ret (ROk tt, s') /\ after_rho cx s3 = Ret (ROk tt, s') /\ after_div cx s4 = Ret (ROk tt, s') /\ (forall i x, reported_npv s1 i x <-> reported_npv s2 i x).
Proof.
  intros cx m s s' W ND K N TH H. apply coded_nodup in ND. destruct (with_instruments_ok _ _ _ W) as (_ & M & A & _ & R & _). unfold runs, calculate in H. rewrite N, TH in H. cbn [whenever] in H. step H u0 s1 E1. destruct u0.
  destruct (npv_stage cx m s s1) as (M1 & A1 & O1 & V1).
  { rewrite A. exact ND. } { exact M. } { intro k. rewrite A, (K k), in_map_iff. split; intros (x & X & Y); exists x; auto. } { exact E1. }
  step H u0 s2 E2. destruct u0.
  assert (M2 : st_market s2 = m). { destruct (cf_fx (cx_config cx)); cbn [whenever] in E2; [|apply done_ok in E2; destruct E2 as [_ ->]; exact M1]. destruct (c183_exposure cx s1 s2) as (X1 & X2 & _); [rewrite A1, A; exact ND|exact E2|]. congruence. }
  step H u0 s3 E3. destruct u0.
  assert (M3 : st_market s3 = m).
  { destruct (cf_delta (cx_config cx)); cbn [whenever] in E3; [|apply done_ok in E3; destruct E3 as [_ ->]; exact M2]. step E3 u0 sx Ex. destruct u0. destruct (c184_linear cx s2 sx ND Ex) as (Y1 & _). destruct (c184_delta cx sx s3 ND E3) as (Y2 & _). congruence. }
  step H u0 s0 E0. apply done_ok in E0. destruct E0 as [_ ->]. step H u1 s4 E4. destruct u1. pose proof H as H4. step H u1 s5 E5. destruct u1. pose proof H as H5. step H u1 s6 E6. destruct u1.
  exists s3, s4, s5, s6. split; [exact M3|]. split; [exact E4|]. split; [exact E5|]. split; [exact E6|]. split; [exact H4|]. split; [exact H5|]. split; [exact H|].
  intros i x. pose proof (keeps_whenever _ (cf_vega (cx_config cx)) _ (keeps_vega cx) s3 _ s4 E4) as O. symmetry. apply (only_npv _ _ _ i x O). intro Q. exact Q.
Qed.

(** [in_engine], with the match parameter and the exponential *)
Lemma in_engine_too : forall fo se is r i, may fo se is (ROk r) -> NoDup (map code is) -> In i is -> exists sh l w cx s s',
  with_parameter_data (se_exp se) (se_eval se) (se_data se) (se_match se) (se_sticky se) (cf_vega_tenors (se_config se)) (cf_moneyness (se_config se)) sh is = Ret (ROk l) /\
  create_pricer (se_analytic se) l (se_match se) i = Ret (ROk w) /\ with_instruments (ld_market l) (cx_insts cx) = ROk s /\ runs (calculate cx) s s' /\ r = st_results s' /\ cx_insts cx = is /\ cx_config cx = se_config se /\ cx_pricer cx (code i) = Some (pricer_of fo w) /\ (forall k, In k (cx_keys cx) <-> In k (map code is)) /\
  cx_match cx = se_match se /\ cx_exp cx = se_exp se.
Proof.
  intros fo se is r i (o & OK & H) N I. destruct (group_steps _ _ _ _ _ H) as (s & l & ws & s' & W & L & P & R & E). destruct (c198_each (se_match se) is (se_analytic se) l ws P) as [F A]. destruct (In_nth_error _ _ I) as [j J]. destruct (A j i J) as (w & CW & NW).
  exists (or_shuffle o), l, w. eexists. exists s, s'. split; [exact L|]. split; [exact CW|]. split; [|split; [exact R|]]; [exact W|]. split; [exact E|]. split; [reflexivity|]. split; [reflexivity|]. split; [cbn [cx_pricer]; apply pricer_map_at; [rewrite F; exact N|exact (nth_error_In _ _ NW)]|]. split; [exact (proj2 (ok_keys _ _ _ OK))|]. split; reflexivity.
Qed.

Section Loaded.
Context (se : setup) (sh : list nat -> list nat) (is : list instrument) (l : loaded).
Hypothesis L : with_parameter_data (se_exp se) (se_eval se) (se_data se) (se_match se) (se_sticky se) (cf_vega_tenors (se_config se)) (cf_moneyness (se_config se)) sh is = Ret (ROk l).
Let m := ld_market l.
(** the surface of an option is for the market of the data *)
Lemma env_read : forall u, vol_asked is u -> exists v e, mk_vol m u = Some v /\ env_of m u v = Some e /\ env_for se u e.
Proof using L.
  intros u A. destruct (c196_surfaces _ _ _ _ _ _ _ _ _ l L) as [S _]. destruct (S u A) as (v & e & V & C & B & E & F). exists v, e. split; [exact V|]. split; [exact E|].
  fold m in E. rewrite env_view in E. destruct (mk_curve m (vt_coll v)) as [cc|] eqn:E1; [|discriminate E]. destruct (mk_curve m (vt_borrow v)) as [cb|] eqn:E2; [|discriminate E].
  destruct (stock_read se sh is l L u) as (s & dv & EQ & ST). { intro Q. fold m in Q. unfold equity_view, equity in E. rewrite Q in E. discriminate E. } fold m in EQ. rewrite EQ in E. apply some_inj in E. subst e. split; [|split; [|split]]; cbn [ve_coll ve_borrow ve_eval ve_price ve_div].
  - destruct (curve_read se sh is l L (vt_coll v) (mp_collateral (se_match se) u)) as (c & X & Y); [fold m; congruence|exact C|]. assert (c = cc) by (fold m in X; congruence). subst c. exact Y.
  - destruct (curve_read se sh is l L (vt_borrow v) (mp_borrowing (se_match se) u)) as (c & X & Y); [fold m; congruence|exact B|]. assert (c = cb) by (fold m in X; congruence). subst c. exact Y.
  - exact (date_read se sh is l L).
  - exact ST.
Qed.
End Loaded.

(** what vega leaves *)
Definition vol_left (cx : context) (m : market) (u : string) (v v' : vol_entry) : Prop :=
  vt_surface v' = vt_surface v \/ cf_vega (cx_config cx) = true /\ exists e o1, env_of m u v = Some e /\ bump_surface e None None None None (cf_vega_bump (cx_config cx)) (vt_surface v) = Ret (ROk o1) /\ bump_surface e None None None None (gneg (cf_vega_bump (cx_config cx))) o1 = Ret (ROk (vt_surface v')).
Lemma after_vegas : forall cx s1 s2, coded (cx_insts cx) -> runs (whenever (cf_vega (cx_config cx)) (set_vega cx)) s1 s2 -> let m := st_market s1 in let m' := st_market s2 in
  mk_world m' = mk_world m /\ mk_equity m' = mk_equity m /\ mk_dividend m' = mk_dividend m /\ mk_curve m' = mk_curve m /\ forall u v, mk_vol m u = Some v -> exists v', mk_vol m' u = Some v' /\ vol_left cx m u v v'.
Proof.
  intros cx s1 s2 C H m m'. destruct (cf_vega (cx_config cx)) eqn:V; cbn [whenever] in H.
  - destruct (c187_vega cx s1 s2 C H) as ((us & _ & _ & N1 & N2 & N3 & N4 & N5) & _). split; [exact N1|]. split; [exact N2|]. split; [exact N3|]. split; [exact N4|]. intros u v E. destruct (N5 u) as [A B]. destruct (in_dec string_dec u us) as [I|I].
    + destruct (B I) as (v0 & e & o1 & o2 & X1 & X2 & X3 & X4 & X5). assert (v0 = v) by (fold m in X1; congruence). subst v0. eexists. split; [exact X5|]. right. split; [exact V|]. exists e, o1. auto.
    + exists v. split; [fold m m' in A; rewrite (A I); exact E|left; reflexivity].
  - apply done_ok in H. destruct H as [_ ->]. do 4 (split; [reflexivity|]). intros u v E. exists v. split; [exact E|left; reflexivity].
Qed.
(** what rho leaves *)
Lemma after_rhos : forall cx s1 s2, coded (cx_insts cx) -> runs (whenever (cf_rho (cx_config cx)) (set_rho cx)) s1 s2 -> let m := st_market s1 in let m' := st_market s2 in
  mk_world m' = mk_world m /\ mk_equity m' = mk_equity m /\ mk_dividend m' = mk_dividend m /\ mk_vol m' = mk_vol m /\ forall n, match mk_curve m n, mk_curve m' n with None, None => True | Some c, Some c' => c' = c \/ cf_rho (cx_config cx) = true /\ exists c1, bump_times (cx_exp cx) c None None (cf_rho_bump (cx_config cx)) = Ret (ROk tt, c1) /\ bump_times (cx_exp cx) c1 None None (gneg (cf_rho_bump (cx_config cx))) = Ret (ROk tt, c') | _, _ => False end.
Proof.
  intros cx s1 s2 C H m m'. destruct (cf_rho (cx_config cx)) eqn:V; cbn [whenever] in H.
  - destruct (c186_rho cx s1 s2 C H) as ((ns & _ & _ & N1 & N2 & N3 & N4 & N5) & _). split; [exact N1|]. split; [exact N2|]. split; [exact N3|]. split; [exact N4|]. intros n. destruct (N5 n) as [A B]. fold m m' in A, B. destruct (in_dec string_dec n ns) as [I|I].
    + destruct (B I) as (c & c1 & c2 & X1 & X2 & X3 & X4). rewrite X1, X4. right. split; [reflexivity|]. exists c1. auto.
    + rewrite (A I). destruct (mk_curve m n); auto.
  - apply done_ok in H. destruct H as [_ ->]. do 4 (split; [reflexivity|]). intros n. unfold m', m. destruct (mk_curve (st_market s1) n); auto.
Qed.

(** ** What a pricer reads in another market *)
Definition equity_of (m : market) (w : wiring) : option (f32 * odt * option dividend) := match w with WFutures e _ _ | WOption e _ _ _ _ _ | WStock e => equity_view m e | _ => None end.
Lemma equity_of_view : forall m w, vw_equity (view_of m w) = equity_of m w.
Proof. intros m [a f p|e c b|e v a c b q|a c|j u f|a b f p j|e|]; reflexivity. Qed.
Section Other.
Context (se : setup) (sh : list nat -> list nat) (is : list instrument) (l : loaded) (i : instrument) (w : wiring).
Hypothesis L : with_parameter_data (se_exp se) (se_eval se) (se_data se) (se_match se) (se_sticky se) (cf_vega_tenors (se_config se)) (cf_moneyness (se_config se)) sh is = Ret (ROk l).
Hypotheses (D : ~ asked is dummy) (I : In i is) (C : create_pricer (se_analytic se) l (se_match se) i = Ret (ROk w)).
Let m := ld_market l.
Context (P : string -> curve -> curve -> Prop) (R : string -> surface -> surface -> Prop) (m2 : market).
Hypotheses (DT : w_date (mk_world m2) = w_date (mk_world m)) (RT : forall j p, nth_error (w_prices (mk_world m)) j = Some p -> mp_div p = None -> rate_view m2 j = rate_view m j).
Lemma rate_same : forall x j, fx_asked is x -> ld_fx l x = Some j -> rate_view m2 j = rate_view m j.
Proof using L RT.
  intros x j A J. destruct (c196_rates _ _ _ _ _ _ _ _ _ l L x A) as (r & j' & _ & Q & N). assert (j' = j) by congruence. subst j'. apply (RT j _ N). reflexivity.
Qed.
Hypothesis CV : forall x c, mk_curve m x = Some c -> exists c', mk_curve m2 x = Some c' /\ P x c c'.
Hypothesis VL : forall u v, vol_asked is u -> mk_vol m u = Some v -> exists v', mk_vol m2 u = Some v' /\ R u (vt_surface v) (vt_surface v').
Lemma curves_read : forall ns ks, Forall2 (fun n k => match k with Some x => n = Some x /\ mk_curve m x <> None | None => n = None end) ns ks -> curves_like P ns (map (opt_curve m) ks) (map (opt_curve m2) ks).
Proof using CV.
  intros ns ks H. induction H as [|n [x|] ns ks H F IH]; cbn [map opt_curve]; [apply like_none| |subst n; apply like_no_curve; exact IH].
  destruct H as [-> H]. destruct (mk_curve m x) as [c|] eqn:E; [|contradiction H; reflexivity]. destruct (CV x c E) as (c' & E' & Q). rewrite E'. apply like_curve; assumption.
Qed.
Lemma other_view : let v := view_of m w in let v' := view_of m2 w in
  vw_date v' = vw_date v /\ vw_rate v' = vw_rate v /\ vw_quanto v' = vw_quanto v /\ vw_fixings v' = vw_fixings v /\ curves_like P (curve_names se i) (vw_curves v) (vw_curves v') /\ vols_like R i v v'.
Proof using L D I C DT RT CV VL.
  pose proof (created_wired _ _ _ _ _ C) as W. pose proof (c198_right _ _ _ _ _ _ _ _ _ _ _ L i w D I C) as RP.
  assert (IX : forall x f p, indexed (se_match se) (se_data se) x f p -> match f with Some n => mk_curve m n <> None | None => True end -> match f with Some y => index_name se x = Some y /\ mk_curve m y <> None | None => index_name se x = None end).
  { intros [ix|] f p H Q; cbn in *; [|destruct H as [-> _]; reflexivity]. destruct H as (n & c & -> & N & _). auto. }
  unfold right_pricer in RP. unfold curve_names. destruct (in_kind i) as [us uc|issuer t r x|  |tag|t fc x fx|uc fx|ty u uc settled q|u|] eqn:K; destruct w as [a f p|e c b|e v a c b q'|a c|j u' f|a b f p j|e|]; try contradiction RP; cbn [view_of vw_date vw_rate vw_quanto vw_fixings vw_curves]; cbn in W; unfold vols_like; cbn [vw_vol]; rewrite DT.
  - destruct RP as (u & us' & -> & -> & C1 & B1). destruct W as (W1 & W2 & W3). do 4 (split; [reflexivity|]). split; [|exact Logic.I]. apply (curves_read [_; _] [Some c; Some b]). repeat constructor; auto.
  - destruct RP as (A1 & X1). destruct W as (W1 & W2). do 4 (split; [reflexivity|]). split; [|exact Logic.I]. apply (curves_read [_; _] [Some a; f]). constructor; [auto|constructor; [exact (IX x f p X1 W2)|constructor]].
  - destruct RP as (A1 & B1 & X1 & Y1). destruct W as (W1 & W2 & W3). split; [reflexivity|]. split; [|split; [reflexivity|split; [reflexivity|split; [|exact Logic.I]]]].
    + destruct j as [n|]; [|reflexivity]. destruct fx as [y|]; [|discriminate Y1]. destruct Y1 as [Y1 _]. apply (rate_same y n); [exists i; split; [exact I|unfold fx_codes; rewrite K; left; reflexivity]|congruence].
    + apply (curves_read [_; _; _] [Some a; Some b; f]). constructor; [auto|constructor; [auto|constructor; [exact (IX x f p X1 W3)|constructor]]].
  - destruct RP as (J1 & A1 & B1). destruct W as (W1 & W2). split; [reflexivity|]. split; [|split; [reflexivity|split; [reflexivity|split; [|exact Logic.I]]]].
    + apply (rate_same fx j); [exists i; split; [exact I|unfold fx_codes; rewrite K; left; reflexivity]|exact J1].
    + apply (curves_read [_; _] [Some u'; Some f]). repeat constructor; auto.
  - destruct RP as (-> & -> & -> & A1 & C1 & B1 & Q1 & Q2). destruct W as (W1 & W2 & W3 & W4). do 4 (split; [reflexivity|]). split.
    + apply (curves_read [_; _; _] [Some a; Some c; Some b]). repeat constructor; auto.
    + assert (VA : vol_asked is u) by (exists i; split; [exact I|unfold vol_underlyings; rewrite K; left; reflexivity]). destruct (env_read se sh is l L u VA) as (v & e & EV & _). fold m in EV. destruct (VL u v VA EV) as (v' & EV' & Q). unfold vol_view. rewrite EV, EV'. cbn [option_map]. exists u. split; [unfold underlyings; rewrite K; left; reflexivity|exact Q].
  - do 4 (split; [reflexivity|]). split; [apply like_none|exact Logic.I].
  - do 4 (split; [reflexivity|]). split; [apply like_none|exact Logic.I].
Qed.
End Other.
