(** QRiskProps.v -- C215 to C217: vega, rho and the delta of dividends in the report. *)
From Coq Require Import ZArith Ascii String.
From Coq Require Import List Bool Lia.
From Flocq Require Import Core IEEE754.BinarySingleNaN.
From Verif Require Import Base FloatModel KrxModel QDateModel QInterpModel QDivModel QCurveModel QMoneyModel QBondModel QBondProofs QSwapModel QSwapProps QFutModel QInstModel QInstSpec QInstProps QMatchProps QVolModel QEngModel QEngSpec QEngProofs QEngFrame QEngProps QEngDeltaProps QEngBump QEngBumpProps QLoadModel QLoadSpec QLoadProofs QLoadProps QPricerProps QGenModel QGenProofs QGenProps QGroupProofs QGroupProps QWholeModel QWholeSpec QWholeProofs QWholeProps QRiskSpec QRiskProofs QBondSpec QBondPriceProps QCurveProps QCurveExp QVolProps. From Coq Require Import Permutation.
Import ListNotations.
Open Scope Z_scope.

Section Report.
Context (fo : formulas) (se : setup) (i : instrument) (c : calc).
Hypotheses (H : reported_by fo se i c) (NP : cf_npv (se_config se) = true) (TH : cf_theta (se_config se) = false).
(** C215: the vega reported in a surface is the change of the price, by the formulas, for
    what the data have but for that surface bumped *)
Theorem c215_view : forall u, cf_vega (se_config se) = true -> ~ In (type_name i) ["Futures"; "Stock"]%string -> In u (underlyings i) ->
  exists v v' res up, sees se i v /\ vega_view se u v v' /\ fo_result fo v i = Ret (ROk res) /\ fo_npv fo v' i = Ret (ROk up) /\ shows c i res /\
    ca_greek c Vega u = Some (slope up (nr_npv res) (cf_vega_bump (se_config se)) pct (notional i)).
Proof using H NP TH.
  intros u VG NT UI. destruct H as (is & r & M & N & D & I & E). destruct (in_engine_too _ se is r i M N I) as (sh & l & w & cx & s & s' & L & C & W & R & E1 & G & F & P & K & _ & _).
  destruct (c182_value cx (ld_market l) s s' W) with (i := i) as (x & fl & (p & Q & V) & _ & c' & X & U & A & B & _); [rewrite G; exact N|rewrite G; exact K|rewrite F; exact NP|exact R|rewrite G; exact I|].
  destruct (stages cx (ld_market l) s s' W) as (s1 & s2 & s3 & s4 & MK & R1 & _ & _ & A2 & _ & _ & NN); [rewrite G; exact N|rewrite G; exact K|rewrite F; exact NP|rewrite F; exact TH|exact R|]. rewrite F, VG in R1. cbn [whenever] in R1.
  assert (CD : coded (cx_insts cx)) by (apply coded_nodup; rewrite G; exact N). destruct (c187_vega cx s1 s2 CD R1) as (_ & _ & GK). destruct (GK i u) as (us & m1 & m2 & up & npv & NI & VN & VB & (p2 & P2 & PU) & RN & RG); [split; [rewrite G; exact I|split; [exact NT|exact UI]]|]. clear GK.
  apply NN in RN. apply (proj1 (frame_greek Vega _ (keeps_after_vega cx) _ _ _ A2 i npv EmptyString (gof_Z 0))) in RN. apply (proj2 (frame_greek Vega _ (keeps_after_vega cx) _ _ _ A2 i (gof_Z 0) u _)) in RG.
  rewrite F in RG, VN, VB. rewrite MK in VN. assert (c' = c) by congruence. subst c'. rewrite P in Q, P2. apply some_inj in Q, P2. subst p p2. cbn [pricer_of pr_result pr_npv] in V, PU.
  assert (npv = nr_npv x). { apply (reported_fun _ _ _ _ RN). exists c. split; [congruence|exists x; auto]. } subst npv.
  destruct RG as (c1 & X1 & Y1). assert (c1 = c) by congruence. subst c1.
  exists (view_of (ld_market l) w), (view_of m2 w), x, up. split; [exact (sees_it se sh is l i w L D I C)|]. split; [|split; [exact V|split; [exact PU|split; [split; [exact U|split; [exact A|exact B]]|exact Y1]]]].
  (* what is read *)
  destruct VN as (N1 & N2 & N3 & N4 & N5). destruct VB as (v & e & o & B1 & B2 & B3 & B4 & B5 & B6 & B7 & B8). destruct (N5 u) as [N6 _]. rewrite (N6 NI) in B1.
  pose proof (c198_right _ _ _ _ _ _ _ _ _ _ _ L i w D I C) as RP. unfold right_pricer in RP. unfold underlyings in UI. destruct (in_kind i) as [us0 uc|issuer t r0 x0|  |tag|t fc x0 fx|uc fx|ty u0 uc settled q|u0|] eqn:KI; try contradiction UI; try (exfalso; apply NT; unfold type_name; rewrite KI; cbn; auto; fail).
  destruct UI as [->|[]]. destruct w as [? ? ?|? ? ?|e0 v0 a0 c0 b0 q'|? ?|? ? ?|? ? ? ? ?|?|]; try contradiction RP. destruct RP as (-> & -> & _).
  assert (VA : vol_asked is u) by (exists i; split; [exact I|unfold vol_underlyings; rewrite KI; left; reflexivity]). destruct (env_read se sh is l L u VA) as (v1 & e1 & EV & EE & EF). assert (v1 = v) by congruence. subst v1.
  assert (e = e1). { assert (QQ : env_of m1 u v = env_of (ld_market l) u v) by (unfold env_of, equity; rewrite N1, N2, N4; reflexivity). congruence. } subst e1.
  unfold vega_view. cbn [view_of vw_date vw_equity vw_rate vw_quanto vw_fixings vw_curves vw_vol]. unfold equity_view, equity, price_view, div_at, vol_view. rewrite B5, B6, B8, N1, N2, N4. do 6 (split; [reflexivity|]). rewrite EV, (B4 u), String.eqb_refl. cbn [option_map vt_surface].
  exists e. split; [exact EF|exact B3].
Qed.

(** C216: the rho reported in a curve is the change of the price, by the formulas, for what
    the data have but for the curves of that name bumped, and for what vega and the curves
    before may have left *)
Theorem c216_view : forall n, cf_rho (se_config se) = true -> type_name i <> "Stock"%string -> n <> dummy -> needs (se_match se) i (Some n) ->
  exists v v' res up, sees se i v /\ rho_view se n i v v' /\ fo_result fo v i = Ret (ROk res) /\ fo_npv fo v' i = Ret (ROk up) /\ shows c i res /\
    ca_greek c Rho n = Some (slope up (nr_npv res) (cf_rho_bump (se_config se)) bp (notional i)).
Proof using H NP TH.
  intros n VG NT ND UI. destruct H as (is & r & M & N & D & I & E). destruct (in_engine_too _ se is r i M N I) as (sh & l & w & cx & s & s' & L & C & W & R & E1 & G & F & P & K & MM & EX).
  destruct (c182_value cx (ld_market l) s s' W) with (i := i) as (x & fl & (p & Q & V) & _ & c' & X & U & A & B & _); [rewrite G; exact N|rewrite G; exact K|rewrite F; exact NP|exact R|rewrite G; exact I|].
  destruct (stages cx (ld_market l) s s' W) as (s1 & s2 & s3 & s4 & MK & R1 & R2 & _ & A2 & A3 & _ & NN); [rewrite G; exact N|rewrite G; exact K|rewrite F; exact NP|rewrite F; exact TH|exact R|].
  assert (CD : coded (cx_insts cx)) by (apply coded_nodup; rewrite G; exact N). destruct (after_vegas cx s1 s2 CD R1) as (V1 & V2 & V3 & V4 & V5). rewrite MK in *.
  rewrite F, VG in R2. cbn [whenever] in R2. destruct (c186_rho cx s2 s3 CD R2) as (_ & _ & GK). destruct (GK i n) as (ns & m1 & m2 & up & npv & NI & VN & VB & (p2 & P2 & PU) & RN & RG); [split; [rewrite G; exact I|split; [intros [Q'|[]]; congruence|split; [exact ND|rewrite MM; exact UI]]]|]. clear GK.
  apply (proj1 (frame_greek Vega _ (keeps_after_vega cx) _ _ _ A2 i npv EmptyString (gof_Z 0))) in RN. apply (proj2 (frame_greek Rho _ (keeps_after_rho cx Rho ltac:(discriminate)) _ _ _ A3 i (gof_Z 0) n _)) in RG.
  rewrite F in RG, VN, VB. rewrite EX in VN, VB. assert (c' = c) by congruence. subst c'. rewrite P in Q, P2. apply some_inj in Q, P2. subst p p2. cbn [pricer_of pr_result pr_npv] in V, PU.
  assert (npv = nr_npv x). { apply (reported_fun _ _ _ _ RN). exists c. split; [congruence|exists x; auto]. } subst npv.
  destruct RG as (c1 & X1 & Y1). assert (c1 = c) by congruence. subst c1.
  exists (view_of (ld_market l) w), (view_of m2 w), x, up. split; [exact (sees_it se sh is l i w L D I C)|]. split; [|split; [exact V|split; [exact PU|split; [split; [exact U|split; [exact A|exact B]]|exact Y1]]]].
  (* what is read *)
  destruct VN as (N1 & N2 & N3 & N4 & N5). destruct VB as (d & d' & B1 & B2 & B3 & B4 & B5 & B6 & B7).
  assert (WW : mk_world m2 = mk_world (ld_market l)) by congruence. assert (WE : mk_equity m2 = mk_equity (ld_market l)) by congruence.
  destruct (other_view se sh is l i w L D I C (curve_moved se n) (surface_left se) m2) as (O1 & O2 & O3 & O4 & O5 & O6).
  - rewrite WW. reflexivity.
  - intros j q _ _. unfold rate_view, price_view, div_at. rewrite WW. reflexivity.
  - intros y k Ek. rewrite <- V4 in Ek. destruct (N5 y) as [NA NB]. rewrite (B3 y). destruct (String.eqb_spec y n) as [->|YN].
    + rewrite (NA NI) in B1. assert (d = k) by congruence. subst d. exists d'. split; [reflexivity|]. split; [intros _; exact B2|intro Z; contradiction Z; reflexivity].
    + destruct (in_dec string_dec y ns) as [J|J].
      * destruct (NB J) as (k0 & k1 & k2 & Z1 & Z2 & Z3 & Z4). assert (k0 = k) by congruence. subst k0. exists k2. split; [exact Z4|]. split; [intro Z; contradiction|]. intros _. right. split; [exact VG|]. exists k1. split; [exact Z2|exact Z3].
      * exists k. split; [rewrite (NA J); exact Ek|]. split; [intro Z; contradiction|]. intros _. left. reflexivity.
  - intros u v VA Ev. destruct (V5 u v Ev) as (v' & Ev' & Q). exists v'. split; [congruence|]. destruct Q as [Q|(Q0 & e & o1 & Q1 & Q2 & Q3)]; [left; exact Q|right]. rewrite F in Q0, Q2, Q3. split; [exact Q0|].
    destruct (env_read se sh is l L u VA) as (v1 & e1 & EV & EE & EF). assert (v1 = v) by congruence. subst v1. assert (e1 = e) by congruence. subst e1. exists o1. split; exists e; auto.
  - unfold rho_view. split; [exact O1|]. split; [rewrite !equity_of_view; unfold equity_of, equity_view, equity, price_view, div_at; rewrite WW, WE; reflexivity|]. auto.
Qed.

(** C217: the delta of the dividends of an underlying is the change of the price, by the
    formulas, for what the data have but for its dividends bumped, and for what vega and rho
    may have left *)
Theorem c217_view : forall u us, cf_div (se_config se) = true -> ~ In (type_name i) ["Stock"; "Cash"]%string -> underlyings i = u :: us ->
  exists v v' res up, sees se i v /\ div_view se i v v' /\ fo_result fo v i = Ret (ROk res) /\ fo_npv fo v' i = Ret (ROk up) /\ shows c i res /\
    ca_greek c DivDelta u = Some (slope up (nr_npv res) (cf_div_bump (se_config se)) bp (notional i)).
Proof using H NP TH.
  intros u us0 VG NT UI. destruct H as (is & r & M & N & D & I & E). destruct (in_engine_too _ se is r i M N I) as (sh & l & w & cx & s & s' & L & C & W & R & E1 & G & F & P & K & MM & EX).
  destruct (c182_value cx (ld_market l) s s' W) with (i := i) as (x & fl & (p & Q & V) & _ & c' & X & U & A & B & _); [rewrite G; exact N|rewrite G; exact K|rewrite F; exact NP|exact R|rewrite G; exact I|].
  destruct (stages cx (ld_market l) s s' W) as (s1 & s2 & s3 & s4 & MK & R1 & R2 & R3 & A2 & A3 & A4 & NN); [rewrite G; exact N|rewrite G; exact K|rewrite F; exact NP|rewrite F; exact TH|exact R|].
  assert (CD : coded (cx_insts cx)) by (apply coded_nodup; rewrite G; exact N). destruct (after_vegas cx s1 s2 CD R1) as (V1 & V2 & V3 & V4 & V5). destruct (after_rhos cx s2 s3 CD R2) as (T1 & T2 & T3 & T4 & T5). rewrite MK in *.
  destruct (c196_dividends _ _ _ _ _ _ _ _ _ l L) as (_ & _ & DA). assert (DA3 : divs_apart (st_market s3)) by (intros a b k; rewrite T3, V3; apply DA).
  rewrite F, VG in R3. cbn [whenever] in R3. destruct (c188_div cx s3 s4 CD DA3 R3) as (_ & _ & GK). destruct (GK i u) as (us & m1 & m2 & up & npv & NI & VN & VB & (p2 & P2 & PU) & RN & RG); [split; [rewrite G; exact I|split; [exact NT|rewrite UI; left; reflexivity]]|]. clear GK.
  apply (proj1 (frame_greek Rho _ (keeps_after_rho cx Rho ltac:(discriminate)) _ _ _ A3 i npv EmptyString (gof_Z 0))) in RN. apply (proj2 (frame_greek DivDelta _ (keeps_after_div cx DivDelta) _ _ _ A4 i (gof_Z 0) u _)) in RG.
  rewrite F in RG, VN, VB. assert (c' = c) by congruence. subst c'. rewrite P in Q, P2. apply some_inj in Q, P2. subst p p2. cbn [pricer_of pr_result pr_npv] in V, PU.
  assert (npv = nr_npv x). { apply (reported_fun _ _ _ _ RN). exists c. split; [congruence|exists x; auto]. } subst npv.
  destruct RG as (c1 & X1 & Y1). assert (c1 = c) by congruence. subst c1.
  exists (view_of (ld_market l) w), (view_of m2 w), x, up. split; [exact (sees_it se sh is l i w L D I C)|]. split; [|split; [exact V|split; [exact PU|split; [split; [exact U|split; [exact A|exact B]]|exact Y1]]]].
  (* what is read *)
  destruct VN as (N1 & N2 & N3 & N4 & N5 & N6 & N7 & N8 & N9). destruct VB as (k & d & d' & B1 & B2 & B3 & B4 & B5 & B6 & B7 & B8 & B9 & B10 & B11 & B12).
  assert (WP : w_prices (mk_world m2) = w_prices (mk_world (ld_market l))) by congruence. assert (WE : mk_equity m2 = mk_equity (ld_market l)) by congruence.
  destruct (other_view se sh is l i w L D I C (fun _ => curve_left se) (surface_left se) m2) as (O1 & O2 & O3 & O4 & O5 & O6).
  - congruence.
  - intros j q Nq Dq. unfold rate_view. rewrite WP, Nq. cbn [option_map]. unfold price_view, div_at. rewrite Dq. reflexivity.
  - intros y k0 Ek. rewrite <- V4 in Ek. pose proof (T5 y) as Q. rewrite Ek in Q. replace (mk_curve m2 y) with (mk_curve (st_market s3) y) by congruence. destruct (mk_curve (st_market s3) y) as [k'|]; [|contradiction Q]. exists k'. split; [reflexivity|].
    destruct Q as [Q|(Q0 & k1 & Q1 & Q2)]; [left; exact Q|right]. rewrite F in Q0, Q1, Q2. rewrite EX in Q1, Q2. split; [exact Q0|]. exists k1. split; [exact Q1|exact Q2].
  - intros y v VA Ev. destruct (V5 y v Ev) as (v' & Ev' & Q). exists v'. split; [congruence|]. destruct Q as [Q|(Q0 & e & o1 & Q1 & Q2 & Q3)]; [left; exact Q|right]. rewrite F in Q0, Q2, Q3. split; [exact Q0|].
    destruct (env_read se sh is l L y VA) as (v1 & e1 & EV & EE & EF). assert (v1 = v) by congruence. subst v1. assert (e1 = e) by congruence. subst e1. exists o1. split; exists e; auto.
  - unfold div_view. split; [exact O1|]. split; [exact O2|]. split; [exact O3|]. split; [exact O4|]. split; [exact O5|]. split; [exact O6|].
    assert (AU : asked is u) by (exists i; split; [exact I|rewrite UI; left; reflexivity]). destruct (c196_prices _ _ _ _ _ _ _ _ _ l L) as (_ & PR & _). destruct (PR u AU) as (sp & q & SP & EQ & PV & PD & PM).
    assert (DN : nth_error (w_dividends (mk_world (ld_market l))) k = Some d). { destruct (N9 k) as [Z _]. rewrite <- B2, Z; [congruence|]. intros y J Y. apply NI. assert (y = u) by (apply (DA3 y u k Y); congruence). subst y. exact J. }
    assert (KD : mk_dividend (ld_market l) u = Some k) by congruence.
    assert (EW : equity_of (ld_market l) w = equity_view (ld_market l) u /\ equity_of m2 w = equity_view m2 u).
    { pose proof (c198_right _ _ _ _ _ _ _ _ _ _ _ L i w D I C) as RP. unfold right_pricer in RP. unfold underlyings in UI. destruct (in_kind i) as [us1 uc|issuer t r0 x0|  |tag|t fc x0 fx|uc fx|ty u0 uc settled q0|u0|] eqn:KI; try discriminate UI; try (exfalso; apply NT; unfold type_name; rewrite KI; cbn; auto; fail);
        destruct w as [? ? ?|e0 c0 b0|e0 v0 a0 c0 b0 q'|? ?|? ? ?|? ? ? ? ?|?|]; try contradiction RP.
      - destruct RP as (z & us' & -> & -> & _). assert (z = u) by congruence. subst z. split; reflexivity.
      - destruct RP as (-> & _). assert (u0 = u) by congruence. subst u0. split; reflexivity. }
    destruct EW as [EW1 EW2]. rewrite !equity_of_view, EW1, EW2. unfold equity_view. assert (EQ2 : equity m2 u = Some q) by (unfold equity in *; rewrite WE, WP; exact EQ). rewrite EQ, EQ2. cbn [option_map]. unfold price_view, div_at. rewrite PM, KD, DN, (B4 k), Nat.eqb_refl.
    exists (mp_value q), (mp_dt q), d, d'. split; [reflexivity|]. split; [reflexivity|exact B3].
Qed.
End Report.

(** ** The library's own formulas *)
Lemma like_inv : forall (P : string -> curve -> curve -> Prop) nm ns c cs l, curves_like P (nm :: ns) (c :: cs) l ->
  exists c' t, l = c' :: t /\ curves_like P ns cs t /\ match nm, c, c' with Some m, Some a, Some b => P m a b | None, None, None => True | _, _, _ => False end.
Proof. intros P nm ns c cs l X. inversion X; subst; eauto 8. Qed.
Lemma like_end : forall (P : string -> curve -> curve -> Prop) l, curves_like P [] [] l -> l = [].
Proof. intros P l X. inversion X. reflexivity. Qed.
Lemma like_some : forall (P : string -> curve -> curve -> Prop) nm ns a cs l, curves_like P (nm :: ns) (Some a :: cs) l -> exists m b t, nm = Some m /\ l = Some b :: t /\ P m a b /\ curves_like P ns cs t.
Proof. intros P nm ns a cs l X. destruct (like_inv _ _ _ _ _ _ X) as ([b|] & t & -> & Y & Z); destruct nm as [m|]; try contradiction Z. eauto 8. Qed.
(** a curve that may or may not be there, as the forward curve of a bond *)
Definition index_moved (P : string -> curve -> curve -> Prop) (name : option string) (c c' : option curve) : Prop :=
  match name, c, c' with Some m, Some a, Some b => P m a b | None, None, None => True | _, _, _ => False end.
Lemma vols_some : forall R i v v' f e, vols_like R i v v' -> vw_vol v = Some (f, e) -> exists f' e' u, vw_vol v' = Some (f', e') /\ In u (underlyings i) /\ R u f f'.
Proof. intros R i v v' f e X E. unfold vols_like in X. rewrite E in X. destruct (vw_vol v') as [[f' e']|]; [|contradiction X]. destruct X as (u & U & X). exists f', e', u. auto. Qed.

Section Library.
Context (f_ln f_cdf : f32 -> f32) (de : details) (su : sums) (se : setup) (i : instrument) (c : calc).
Hypotheses (H : reported_by (library f_ln f_cdf de su) se i c) (NP : cf_npv (se_config se) = true) (TH : cf_theta (se_config se) = false).
Let eval := se_eval se.

(** vega of an option: its own formula on the surface bumped and not *)
Theorem c215_option : forall ty u uc q, in_kind i = KOption ty u uc false q -> cf_vega (se_config se) = true ->
  exists fund coll borrow s dv f f' qv mid up,
  curve_for se (mp_funding (se_match se) (ccy i)) fund /\ curve_for se (mp_collateral (se_match se) u) coll /\ curve_for se (mp_borrowing (se_match se) u) borrow /\ stock_for se u s dv /\ surface_for se u f /\ quanto_for se i u uc qv /\
  surface_up se u (cf_vega_bump (se_config se)) f f' /\
  let price g := option_npv f_ln f_cdf eval coll borrow fund s dv (surface_vol g) qv (option_of de i ty uc q) in
  price f = Ret (ROk mid) /\ price f' = Ret (ROk up) /\ shows c i (result_of_npv mid) /\
  ca_greek c Vega u = Some (slope up mid (cf_vega_bump (se_config se)) pct (notional i)).
Proof using H NP TH.
  intros ty u uc q KI VG.
  destruct (c215_view _ se i c H NP TH u VG) as (v & v' & res & up & S & (D & E & R & Q & F & CL & VL) & A & B & SH & G); [unfold type_name; rewrite KI; destruct ty; cbn; intuition discriminate|unfold underlyings; rewrite KI; left; reflexivity|].
  destruct S as [? ? ? ? ? ? ? Z|ty' u' uc' q' a k b s dv f e qv Z S1 S2 S3 S4 S5 S6|? ? ? ? ? ? ? Z|? ? ? ? ? ? Z|? ? ? ? ? ? ? ? ? ? Z|? ? ? Z|Z]; try congruence.
  assert (ty' = ty /\ u' = u /\ uc' = uc /\ q' = q) as (-> & -> & -> & ->) by (repeat split; congruence).
  destruct v' as [d' cs' eq' vol' rt' qt' fx']. cbn [vw_date vw_curves vw_equity vw_vol vw_rate vw_quanto vw_fixings] in *. subst. destruct vol' as [[f' e']|]; [|contradiction VL].
  cbn [library fo_result fo_npv] in A, B. unfold real_result in A. unfold real_npv in B. rewrite KI in A, B. cbn [vw_curves vw_equity vw_date vw_vol vw_quanto] in A, B. unfold option_result in A.
  apply QLoadProofs.rbind_ok in A. destruct A as (mid & A1 & A2). apply ret_inj, rok_inj in A2. subst res.
  exists a, k, b, s, dv, f, f', qv, mid, up. do 7 (split; [assumption|]). cbv zeta. split; [exact A1|]. split; [exact B|]. split; [exact SH|exact G].
Qed.

(** rho of a futures: its own formula on the collateral and borrowing curves moved and not *)
Theorem c216_futures : forall n u us uc, in_kind i = KFutures (u :: us) uc -> cf_rho (se_config se) = true -> n <> dummy -> needs (se_match se) i (Some n) ->
  exists cn bn coll borrow coll' borrow' s dv mid up,
  mp_collateral (se_match se) u = Some cn /\ mp_borrowing (se_match se) u = Some bn /\ curve_for se (Some cn) coll /\ curve_for se (Some bn) borrow /\ stock_for se u s dv /\
  curve_moved se n cn coll coll' /\ curve_moved se n bn borrow borrow' /\
  futures_npv eval coll borrow s dv (future_of de i uc) = Ret (ROk mid) /\ futures_npv eval coll' borrow' s dv (future_of de i uc) = Ret (ROk up) /\ shows c i (result_of_npv mid) /\
  ca_greek c Rho n = Some (slope up mid (cf_rho_bump (se_config se)) bp (notional i)).
Proof using H NP TH.
  intros n u us uc KI VG ND UI.
  destruct (c216_view _ se i c H NP TH n VG) as (v & v' & res & up & S & (D & E & R & Q & F & CL & VL) & A & B & SH & G); [unfold type_name; rewrite KI; discriminate|exact ND|exact UI|].
  destruct S as [u' us' uc' k b s dv Z S2 S3 S4|? ? ? ? ? ? ? ? ? ? ? ? Z|? ? ? ? ? ? ? Z|? ? ? ? ? ? Z|? ? ? ? ? ? ? ? ? ? Z|? ? ? Z|Z]; try congruence.
  assert (u' = u /\ uc' = uc) as (-> & ->) by (split; congruence).
  destruct v' as [d' cs' eq' vol' rt' qt' fx']. cbn [vw_date vw_curves vw_equity vw_vol vw_rate vw_quanto vw_fixings] in *. subst. unfold curve_names in CL. rewrite KI in CL.
  destruct (like_some _ _ _ _ _ _ CL) as (cn & k' & t1 & N1 & -> & M1 & CL1). destruct (like_some _ _ _ _ _ _ CL1) as (bn & b' & t2 & N2 & -> & M2 & CL2). apply like_end in CL2. subst t2.
  cbn [library fo_result fo_npv] in A, B. unfold real_result in A. unfold real_npv in B. rewrite KI in A, B. cbn [vw_curves vw_equity vw_date vw_vol vw_quanto] in A, B. unfold futures_result in A.
  apply QLoadProofs.rbind_ok in A. destruct A as (mid & A1 & A2). apply ret_inj, rok_inj in A2. subst res. rewrite N1 in S2. rewrite N2 in S3.
  exists cn, bn, k, b, k', b', s, dv, mid, up. do 10 (split; [assumption|]). exact G.
Qed.
(** rho of an option, likewise; the surface is the one vega may have left *)
Theorem c216_option : forall n ty u uc q, in_kind i = KOption ty u uc false q -> cf_rho (se_config se) = true -> n <> dummy -> needs (se_match se) i (Some n) ->
  exists an cn bn fund coll borrow fund' coll' borrow' s dv f f' qv mid up,
  mp_funding (se_match se) (ccy i) = Some an /\ mp_collateral (se_match se) u = Some cn /\ mp_borrowing (se_match se) u = Some bn /\ curve_for se (Some an) fund /\ curve_for se (Some cn) coll /\ curve_for se (Some bn) borrow /\ stock_for se u s dv /\ surface_for se u f /\ quanto_for se i u uc qv /\
  curve_moved se n an fund fund' /\ curve_moved se n cn coll coll' /\ curve_moved se n bn borrow borrow' /\ surface_left se u f f' /\
  option_npv f_ln f_cdf eval coll borrow fund s dv (surface_vol f) qv (option_of de i ty uc q) = Ret (ROk mid) /\
  option_npv f_ln f_cdf eval coll' borrow' fund' s dv (surface_vol f') qv (option_of de i ty uc q) = Ret (ROk up) /\ shows c i (result_of_npv mid) /\
  ca_greek c Rho n = Some (slope up mid (cf_rho_bump (se_config se)) bp (notional i)).
Proof using H NP TH.
  intros n ty u uc q KI VG ND UI.
  destruct (c216_view _ se i c H NP TH n VG) as (v & v' & res & up & S & (D & E & R & Q & F & CL & VL) & A & B & SH & G); [unfold type_name; rewrite KI; destruct ty; discriminate|exact ND|exact UI|].
  destruct S as [? ? ? ? ? ? ? Z|ty' u' uc' q' a k b s dv f e qv Z S1 S2 S3 S4 S5 S6|? ? ? ? ? ? ? Z|? ? ? ? ? ? Z|? ? ? ? ? ? ? ? ? ? Z|? ? ? Z|Z]; try congruence.
  assert (ty' = ty /\ u' = u /\ uc' = uc /\ q' = q) as (-> & -> & -> & ->) by (repeat split; congruence).
  destruct (vols_some _ _ _ _ f e VL eq_refl) as (f' & e' & y & VV & UY & SL). unfold underlyings in UY. rewrite KI in UY. destruct UY as [<-|[]].
  destruct v' as [d' cs' eq' vol' rt' qt' fx']. cbn [vw_date vw_curves vw_equity vw_vol vw_rate vw_quanto vw_fixings] in *. subst. unfold curve_names in CL. rewrite KI in CL.
  destruct (like_some _ _ _ _ _ _ CL) as (an & a' & t0 & N0 & -> & M0 & CL0). destruct (like_some _ _ _ _ _ _ CL0) as (cn & k' & t1 & N1 & -> & M1 & CL1). destruct (like_some _ _ _ _ _ _ CL1) as (bn & b' & t2 & N2 & -> & M2 & CL2). apply like_end in CL2. subst t2.
  cbn [library fo_result fo_npv] in A, B. unfold real_result in A. unfold real_npv in B. rewrite KI in A, B. cbn [vw_curves vw_equity vw_date vw_vol vw_quanto] in A, B. unfold option_result in A.
  apply QLoadProofs.rbind_ok in A. destruct A as (mid & A1 & A2). apply ret_inj, rok_inj in A2. subst res. rewrite N0 in S1. rewrite N1 in S2. rewrite N2 in S3.
  exists an, cn, bn, a, k, b, a', k', b', s, dv, f, f', qv, mid, up. do 16 (split; [assumption|]). exact G.
Qed.
(** an FX futures *)
Theorem c216_fx_futures : forall n uc x, in_kind i = KFxFutures uc x -> cf_rho (se_config se) = true -> n <> dummy -> needs (se_match se) i (Some n) ->
  exists un fn u f u' f' rate mid up,
  mp_crs (se_match se) uc = Some un /\ mp_crs (se_match se) (ccy i) = Some fn /\ curve_for se (Some un) u /\ curve_for se (Some fn) f /\ rate_for se (Some x) (Some rate) /\
  curve_moved se n un u u' /\ curve_moved se n fn f f' /\
  fx_futures_npv eval u f rate (fx_future_of de i uc x) = Ret (ROk mid) /\ fx_futures_npv eval u' f' rate (fx_future_of de i uc x) = Ret (ROk up) /\ shows c i (result_of_npv mid) /\
  ca_greek c Rho n = Some (slope up mid (cf_rho_bump (se_config se)) bp (notional i)).
Proof using H NP TH.
  intros n uc x KI VG ND UI.
  destruct (c216_view _ se i c H NP TH n VG) as (v & v' & res & up & S & (D & E & R & Q & F & CL & VL) & A & B & SH & G); [unfold type_name; rewrite KI; discriminate|exact ND|exact UI|].
  destruct S as [? ? ? ? ? ? ? Z|? ? ? ? ? ? ? ? ? ? ? ? Z|? ? ? ? ? ? ? Z|uc' x' u f r rd Z S2 S3 S4|? ? ? ? ? ? ? ? ? ? Z|? ? ? Z|Z]; try congruence.
  assert (x' = x /\ uc' = uc) as (-> & ->) by (split; congruence).
  destruct v' as [d' cs' eq' vol' rt' qt' fx']. cbn [vw_date vw_curves vw_equity vw_vol vw_rate vw_quanto vw_fixings] in *. subst. unfold curve_names in CL. rewrite KI in CL.
  destruct (like_some _ _ _ _ _ _ CL) as (un & u' & t1 & N1 & -> & M1 & CL1). destruct (like_some _ _ _ _ _ _ CL1) as (fn & f' & t2 & N2 & -> & M2 & CL2). apply like_end in CL2. subst t2.
  cbn [library fo_result fo_npv] in A, B. unfold real_result in A. unfold real_npv in B. rewrite KI in A, B. cbn [vw_curves vw_equity vw_date rate_of vw_rate option_map fst] in A, B. unfold fx_futures_result in A.
  apply QLoadProofs.rbind_ok in A. destruct A as (mid & A1 & A2). apply ret_inj, rok_inj in A2. subst res. rewrite N1 in S2. rewrite N2 in S3.
  exists un, fn, u, f, u', f', r, mid, up. do 10 (split; [assumption|]). exact G.
Qed.
(** the delta of dividends of a futures and of an option *)
Theorem c217_futures : forall u us uc, in_kind i = KFutures (u :: us) uc -> cf_div (se_config se) = true ->
  exists cn bn coll borrow coll' borrow' s dv dv' mid up,
  mp_collateral (se_match se) u = Some cn /\ mp_borrowing (se_match se) u = Some bn /\ curve_for se (Some cn) coll /\ curve_for se (Some bn) borrow /\ stock_for se u s (Some dv) /\
  curve_left se coll coll' /\ curve_left se borrow borrow' /\ bump_dividend dv None None (cf_div_bump (se_config se)) = Ret (ROk tt, dv') /\
  futures_npv eval coll borrow s (Some dv) (future_of de i uc) = Ret (ROk mid) /\ futures_npv eval coll' borrow' s (Some dv') (future_of de i uc) = Ret (ROk up) /\ shows c i (result_of_npv mid) /\
  ca_greek c DivDelta u = Some (slope up mid (cf_div_bump (se_config se)) bp (notional i)).
Proof using H NP TH.
  intros u us uc KI VG.
  destruct (c217_view _ se i c H NP TH u us VG) as (v & v' & res & up & S & (D & R & Q & F & CL & VL & s0 & t0 & dv0 & dv' & E & E' & BD) & A & B & SH & G); [unfold type_name; rewrite KI; cbn; intuition discriminate|unfold underlyings; rewrite KI; reflexivity|].
  destruct S as [u' us' uc' k b s dv Z S2 S3 S4|? ? ? ? ? ? ? ? ? ? ? ? Z|? ? ? ? ? ? ? Z|? ? ? ? ? ? Z|? ? ? ? ? ? ? ? ? ? Z|? ? ? Z|Z]; try congruence.
  assert (u' = u /\ uc' = uc) as (-> & ->) by (split; congruence). cbn [vw_equity] in E. assert (s0 = s /\ t0 = se_eval se /\ dv = Some dv0) as (-> & -> & ->) by (repeat split; congruence).
  destruct v' as [d' cs' eq' vol' rt' qt' fx']. cbn [vw_date vw_curves vw_equity vw_vol vw_rate vw_quanto vw_fixings] in *. subst. unfold curve_names in CL. rewrite KI in CL.
  destruct (like_some _ _ _ _ _ _ CL) as (cn & k' & t1 & N1 & -> & M1 & CL1). destruct (like_some _ _ _ _ _ _ CL1) as (bn & b' & t2 & N2 & -> & M2 & CL2). apply like_end in CL2. subst t2.
  cbn [library fo_result fo_npv] in A, B. unfold real_result in A. unfold real_npv in B. rewrite KI in A, B. cbn [vw_curves vw_equity vw_date vw_vol vw_quanto] in A, B. unfold futures_result in A.
  apply QLoadProofs.rbind_ok in A. destruct A as (mid & A1 & A2). apply ret_inj, rok_inj in A2. subst res. rewrite N1 in S2. rewrite N2 in S3.
  exists cn, bn, k, b, k', b', s, dv0, dv', mid, up. do 11 (split; [assumption|]). exact G.
Qed.
Theorem c217_option : forall ty u uc q, in_kind i = KOption ty u uc false q -> cf_div (se_config se) = true ->
  exists fund coll borrow fund' coll' borrow' s dv dv' f f' qv mid up,
  curve_for se (mp_funding (se_match se) (ccy i)) fund /\ curve_for se (mp_collateral (se_match se) u) coll /\ curve_for se (mp_borrowing (se_match se) u) borrow /\ stock_for se u s (Some dv) /\ surface_for se u f /\ quanto_for se i u uc qv /\
  curve_left se fund fund' /\ curve_left se coll coll' /\ curve_left se borrow borrow' /\ surface_left se u f f' /\ bump_dividend dv None None (cf_div_bump (se_config se)) = Ret (ROk tt, dv') /\
  option_npv f_ln f_cdf eval coll borrow fund s (Some dv) (surface_vol f) qv (option_of de i ty uc q) = Ret (ROk mid) /\
  option_npv f_ln f_cdf eval coll' borrow' fund' s (Some dv') (surface_vol f') qv (option_of de i ty uc q) = Ret (ROk up) /\ shows c i (result_of_npv mid) /\
  ca_greek c DivDelta u = Some (slope up mid (cf_div_bump (se_config se)) bp (notional i)).
Proof using H NP TH.
  intros ty u uc q KI VG.
  destruct (c217_view _ se i c H NP TH u [] VG) as (v & v' & res & up & S & (D & R & Q & F & CL & VL & s0 & t0 & dv0 & dv' & E & E' & BD) & A & B & SH & G); [unfold type_name; rewrite KI; destruct ty; cbn; intuition discriminate|unfold underlyings; rewrite KI; reflexivity|].
  destruct S as [? ? ? ? ? ? ? Z|ty' u' uc' q' a k b s dv f e qv Z S1 S2 S3 S4 S5 S6|? ? ? ? ? ? ? Z|? ? ? ? ? ? Z|? ? ? ? ? ? ? ? ? ? Z|? ? ? Z|Z]; try congruence.
  assert (ty' = ty /\ u' = u /\ uc' = uc /\ q' = q) as (-> & -> & -> & ->) by (repeat split; congruence). cbn [vw_equity] in E. assert (s0 = s /\ t0 = se_eval se /\ dv = Some dv0) as (-> & -> & ->) by (repeat split; congruence).
  destruct (vols_some _ _ _ _ f e VL eq_refl) as (f' & e' & y & VV & UY & SL). unfold underlyings in UY. rewrite KI in UY. destruct UY as [<-|[]].
  destruct v' as [d' cs' eq' vol' rt' qt' fx']. cbn [vw_date vw_curves vw_equity vw_vol vw_rate vw_quanto vw_fixings] in *. subst. unfold curve_names in CL. rewrite KI in CL.
  destruct (like_some _ _ _ _ _ _ CL) as (an & a' & t1 & N0 & -> & M0 & CL0). destruct (like_some _ _ _ _ _ _ CL0) as (cn & k' & t3 & N1 & -> & M1 & CL1). destruct (like_some _ _ _ _ _ _ CL1) as (bn & b' & t2 & N2 & -> & M2 & CL2). apply like_end in CL2. subst t2.
  cbn [library fo_result fo_npv] in A, B. unfold real_result in A. unfold real_npv in B. rewrite KI in A, B. cbn [vw_curves vw_equity vw_date vw_vol vw_quanto] in A, B. unfold option_result in A.
  apply QLoadProofs.rbind_ok in A. destruct A as (mid & A1 & A2). apply ret_inj, rok_inj in A2. subst res.
  exists a, k, b, a', k', b', s, dv0, dv', f, f', qv, mid, up. do 14 (split; [assumption|]). exact G.
Qed.

(** Bonds and swaps: a price and its change may be summed in other orders *)
Hypothesis IT : forall k b v j, iterates (su k b v j).
Theorem c216_bond : forall n issuer t r x, in_kind i = KBond issuer t r x -> cf_rho (se_config se) = true -> n <> dummy -> needs (se_match se) i (Some n) ->
  exists bn disc fwd disc' fwd' past res up o1 o2, iterates o1 /\ iterates o2 /\
  mp_bond (se_match se) (issuer, t, r, ccy i) = Some bn /\ curve_for se (Some bn) disc /\ index_for se x fwd past /\
  curve_moved se n bn disc disc' /\ index_moved (curve_moved se n) (index_name se x) fwd fwd' /\
  bond_npv_result f_ln o1 eval disc fwd past (de_bond de i) = Ret (ROk res) /\ bond_npv f_ln o2 eval disc' fwd' past (de_bond de i) = Ret (ROk up) /\ shows c i res /\
  ca_greek c Rho n = Some (slope up (nr_npv res) (cf_rho_bump (se_config se)) bp (notional i)).
Proof using H NP TH IT.
  intros n issuer t r x KI VG ND UI.
  destruct (c216_view _ se i c H NP TH n VG) as (v & v' & res & up & S & (D & E & R & Q & F & CL & VL) & A & B & SH & G); [unfold type_name; rewrite KI; discriminate|exact ND|exact UI|].
  destruct S as [? ? ? ? ? ? ? Z|? ? ? ? ? ? ? ? ? ? ? ? Z|issuer' t' r' x' a f p Z S1 S2|? ? ? ? ? ? Z|? ? ? ? ? ? ? ? ? ? Z|? ? ? Z|Z]; try congruence.
  assert (issuer' = issuer /\ t' = t /\ r' = r /\ x' = x) as (-> & -> & -> & ->) by (repeat split; congruence).
  destruct v' as [d' cs' eq' vol' rt' qt' fx']. cbn [vw_date vw_curves vw_equity vw_vol vw_rate vw_quanto vw_fixings] in *. subst. unfold curve_names in CL. rewrite KI in CL.
  destruct (like_some _ _ _ _ _ _ CL) as (bn & a' & t1 & N1 & -> & M1 & CL1). destruct (like_inv _ _ _ _ _ _ CL1) as (f' & t2 & -> & CL2 & M2). apply like_end in CL2. subst t2.
  cbn [library fo_result fo_npv] in A, B. unfold real_result in A. unfold real_npv in B. rewrite KI in A, B. cbn [vw_curves vw_equity vw_date vw_fixings] in A, B. rewrite N1 in S1.
  exists bn, a, f, a', f', p, res, up. do 2 eexists. split; [apply IT|]. split; [apply IT|]. do 4 (split; [assumption|]). split; [exact M2|]. split; [exact A|]. split; [exact B|]. split; [exact SH|exact G].
Qed.
Theorem c216_swap : forall n t fc x fx, in_kind i = KSwap t fc x fx -> cf_rho (se_config se) = true -> n <> dummy -> needs (se_match se) i (Some n) ->
  exists n1 n2 d1 d2 d1' d2' fwd fwd' past rate res up o1 o2 o3 o4, iterates o1 /\ iterates o2 /\ iterates o3 /\ iterates o4 /\
  mp_crs (se_match se) (ccy i) = Some n1 /\ mp_crs (se_match se) fc = Some n2 /\ curve_for se (Some n1) d1 /\ curve_for se (Some n2) d2 /\ index_for se x fwd past /\ rate_for se fx rate /\
  curve_moved se n n1 d1 d1' /\ curve_moved se n n2 d2 d2' /\ index_moved (curve_moved se n) (index_name se x) fwd fwd' /\
  swap_npv_result f_ln o1 o2 eval d1 d2 fwd past rate (de_swap de i) = Ret (ROk res) /\ swap_npv f_ln o3 o4 eval d1' d2' fwd' past rate (de_swap de i) = Ret (ROk up) /\ shows c i res /\
  ca_greek c Rho n = Some (slope up (nr_npv res) (cf_rho_bump (se_config se)) bp (notional i)).
Proof using H NP TH IT.
  intros n t fc x fx KI VG ND UI.
  destruct (c216_view _ se i c H NP TH n VG) as (v & v' & res & up & S & (D & E & R & Q & F & CL & VL) & A & B & SH & G); [unfold type_name; rewrite KI; destruct t; discriminate|exact ND|exact UI|].
  destruct S as [? ? ? ? ? ? ? Z|? ? ? ? ? ? ? ? ? ? ? ? Z|? ? ? ? ? ? ? Z|? ? ? ? ? ? Z|t' fc' x' fx' a b f p r w Z S1 S2 S3 S4 S5|? ? ? Z|Z]; try congruence.
  assert (t' = t /\ fc' = fc /\ x' = x /\ fx' = fx) as (-> & -> & -> & ->) by (repeat split; congruence).
  destruct v' as [d' cs' eq' vol' rt' qt' fxs']. cbn [vw_date vw_curves vw_equity vw_vol vw_rate vw_quanto vw_fixings] in *. subst. unfold curve_names in CL. rewrite KI in CL.
  destruct (like_some _ _ _ _ _ _ CL) as (n1 & a' & t1 & N1 & -> & M1 & CL1). destruct (like_some _ _ _ _ _ _ CL1) as (n2 & b' & t3 & N2 & -> & M2 & CL2). destruct (like_inv _ _ _ _ _ _ CL2) as (f' & t2 & -> & CL3 & M3). apply like_end in CL3. subst t2.
  cbn [library fo_result fo_npv] in A, B. unfold real_result in A. unfold real_npv in B. rewrite KI in A, B. cbn [vw_curves vw_equity vw_date vw_fixings] in A, B. unfold rate_of at 1 in A. unfold rate_of at 1 in B. cbn [vw_rate] in A, B. rewrite N1 in S1. rewrite N2 in S2.
  exists n1, n2, a, b, a', b', f, f', p. do 3 eexists. do 4 eexists. do 4 (split; [apply IT|]). do 4 (split; [assumption|]). split; [eassumption|]. split; [eassumption|]. do 2 (split; [eassumption|]). split; [exact M3|]. split; [exact A|]. split; [exact B|]. split; [exact SH|exact G].
Qed.
End Library.

(** ** Examples: the portfolio of QWholeProps, where "a" pays a dividend *)
Definition ex_payer : data := Data ex_rates (fun u => if String.eqb u "a" then Some (gof_Z 100) else None) (fun _ => Some zero_data) (fun u => if String.eqb u "a" then Some (VectorData [gof_Z 2] (Some [day_of 2024 11 1]) [] None) else None) (fun _ => Some sixteenth) (fun _ => None) (fun _ => None) (fun _ => None) (fun _ => None).
Definition ex_risks : config := Config true true false false true true true false false false false false (gdiv (gof_Z 1) (gof_Z 4)) (gdiv (gof_Z 1) (gof_Z 4)) pct pct pct bp bp 5 [] ex_tenors [] ex_money.
Definition ex_moves : setup := Setup ex_eval ex_risks StickyToStrike true ex_names ex_payer ex_one.
Definition ex_div_orders (is : list instrument) : orders := Orders (map code is) ["a"%string] (fun x => x) (fun x => x) (fun x => x).
Definition ex_some : list instrument := [ex_call; ex_fut; ex_paper; ex_fxf; ex_fwd].
Definition given {A} (o : option A) : bool := match o with Some _ => true | None => false end.
Definition ex_reports2 (r : outcome (rresult (string -> option calc))) : bool :=
  match r with
  | Ret (ROk r) => match r "C1"%string, r "F1"%string, r "B1"%string, r "X1"%string, r "W1"%string with
      | Some a, Some b, Some c, Some d, Some e => given (ca_greek a Vega "a") && given (ca_greek a Rho "f") && given (ca_greek a Rho "c") && given (ca_greek a DivDelta "a") && given (ca_greek b Rho "c") && given (ca_greek b DivDelta "a") && given (ca_greek c Rho "k") && given (ca_greek d Rho "x") && given (ca_greek e Rho "x")
      | _, _, _, _, _ => false end
  | _ => false end.
Lemma ex_risks_reported : forall f_ln f_cdf, ex_reports2 (group_run (library f_ln f_cdf (ex_fields QBondPriceProps.ex_fixed) ex_as_is) ex_moves (ex_div_orders ex_some) ex_some) = true. Proof. intros f_ln f_cdf. vm_compute. reflexivity. Qed.
Lemma ex_some_codes : NoDup (map code ex_some). Proof. repeat constructor; cbn; intuition discriminate. Qed.
Lemma ex_some_asked : ~ asked ex_some dummy.
Proof. intros (i & I & U). cbn [ex_some In] in I. repeat (destruct I as [<-|I]; [cbn in U; intuition discriminate|]). contradiction I. Qed.
Lemma ex_moves_div : forall u, da_div ex_payer u <> None -> u = "a"%string.
Proof. intros u Q. unfold ex_payer in Q. cbn [da_div] in Q. destruct (String.eqb u "a") eqn:E; [apply String.eqb_eq; exact E|contradiction Q; reflexivity]. Qed.
Lemma ex_moves_orders : orders_ok ex_moves ex_some (ex_div_orders ex_some).
Proof.
  apply Build_orders_ok; unfold ex_div_orders; cbn [or_keys or_div_keys or_shuffle or_coupons or_cash]; try (intro l; apply Permutation_refl).
  - split; [exact ex_some_codes|intro k; apply iff_refl].
  - split; [apply NoDup_cons; [intros []|apply NoDup_nil]|]. intro u. unfold ex_moves. cbn [se_data]. split.
    + intros [<-|[]]. split; [exists ex_call; split; left; reflexivity|discriminate].
    + intros [_ Q]. left. symmetry. exact (ex_moves_div u Q).
Qed.
Lemma ex_run_may : forall fo se is o, orders_ok se is o -> ex_reports2 (group_run fo se o is) = true -> exists rs, may fo se is (ROk rs) /\ ex_reports2 (Ret (ROk rs)) = true.
Proof. intros fo se is o O T. destruct (group_run fo se o is) as [[rs|]| |] eqn:R; try discriminate T. exists rs. split; [exists o; split; assumption|exact T]. Qed.
Lemma ex_moves_may : forall f_ln f_cdf, exists rs, may (library f_ln f_cdf (ex_fields QBondPriceProps.ex_fixed) ex_as_is) ex_moves ex_some (ROk rs) /\ ex_reports2 (Ret (ROk rs)) = true.
Proof. intros f_ln f_cdf. exact (ex_run_may (library f_ln f_cdf (ex_fields QBondPriceProps.ex_fixed) ex_as_is) ex_moves ex_some (ex_div_orders ex_some) ex_moves_orders (ex_risks_reported f_ln f_cdf)). Qed.
Lemma given_some : forall A (o : option A), given o = true -> exists x, o = Some x. Proof. intros A [x|] E; [exists x; reflexivity|discriminate E]. Qed.
(** an option, a futures, a bond, an FX futures and an FX forward, all the hypotheses of
    C215 to C217 hold of their reports, and the figures are in them *)
Example c215_hypotheses_met : forall f_ln f_cdf, let fo := library f_ln f_cdf (ex_fields QBondPriceProps.ex_fixed) ex_as_is in
  cf_npv (se_config ex_moves) = true /\ cf_theta (se_config ex_moves) = false /\ cf_vega (se_config ex_moves) = true /\ cf_rho (se_config ex_moves) = true /\ cf_div (se_config ex_moves) = true /\
  exists a b c d e, reported_by fo ex_moves ex_call a /\ reported_by fo ex_moves ex_fut b /\ reported_by fo ex_moves ex_paper c /\ reported_by fo ex_moves ex_fxf d /\ reported_by fo ex_moves ex_fwd e /\
  (exists x, ca_greek a Vega "a"%string = Some x) /\ (exists x, ca_greek a DivDelta "a"%string = Some x) /\ (exists x, ca_greek b DivDelta "a"%string = Some x).
Proof.
  intros f_ln f_cdf fo. do 5 (split; [reflexivity|]). destruct (ex_moves_may f_ln f_cdf) as (rs & R & X). unfold ex_reports2 in X.
  destruct (rs "C1"%string) as [a|] eqn:A; [|discriminate X]. destruct (rs "F1"%string) as [b|] eqn:B; [|discriminate X]. destruct (rs "B1"%string) as [c|] eqn:C; [|discriminate X]. destruct (rs "X1"%string) as [d|] eqn:D; [|discriminate X]. destruct (rs "W1"%string) as [e|] eqn:E; [|discriminate X].
  repeat (apply andb_true_iff in X; let Y := fresh "X" in destruct X as [X Y]).
  assert (K : forall i c0, In i ex_some -> rs (code i) = Some c0 -> reported_by fo ex_moves i c0). { intros i c0 I Q. exists ex_some, rs. split; [exact R|]. split; [exact ex_some_codes|]. split; [exact ex_some_asked|]. auto. }
  exists a, b, c, d, e. do 5 (split; [apply K; [cbn; tauto|assumption]|]). split; [apply given_some; assumption|]. split; apply given_some; assumption.
Qed.
Example c216_hypotheses_met : forall f_ln f_cdf, let fo := library f_ln f_cdf (ex_fields QBondPriceProps.ex_fixed) ex_as_is in let m := se_match ex_moves in exists a b c d e,
  reported_by fo ex_moves ex_call a /\ needs m ex_call (Some "f"%string) /\ needs m ex_call (Some "c"%string) /\ (exists x, ca_greek a Rho "f" = Some x) /\ (exists x, ca_greek a Rho "c" = Some x) /\
  reported_by fo ex_moves ex_fut b /\ needs m ex_fut (Some "c"%string) /\ (exists x, ca_greek b Rho "c" = Some x) /\
  reported_by fo ex_moves ex_paper c /\ needs m ex_paper (Some "k"%string) /\ (exists x, ca_greek c Rho "k" = Some x) /\
  reported_by fo ex_moves ex_fxf d /\ needs m ex_fxf (Some "x"%string) /\ (exists x, ca_greek d Rho "x" = Some x) /\
  reported_by fo ex_moves ex_fwd e /\ needs m ex_fwd (Some "x"%string) /\ (exists x, ca_greek e Rho "x" = Some x) /\ ~ In dummy ["f"; "c"; "k"; "x"]%string.
Proof.
  intros f_ln f_cdf fo m. destruct (ex_moves_may f_ln f_cdf) as (rs & R & X). unfold ex_reports2 in X.
  destruct (rs "C1"%string) as [a|] eqn:A; [|discriminate X]. destruct (rs "F1"%string) as [b|] eqn:B; [|discriminate X]. destruct (rs "B1"%string) as [c|] eqn:C; [|discriminate X]. destruct (rs "X1"%string) as [d|] eqn:D; [|discriminate X]. destruct (rs "W1"%string) as [e|] eqn:E; [|discriminate X].
  repeat (apply andb_true_iff in X; let Y := fresh "X" in destruct X as [X Y]).
  assert (K : forall i c0, In i ex_some -> rs (code i) = Some c0 -> reported_by fo ex_moves i c0). { intros i c0 I Q. exists ex_some, rs. split; [exact R|]. split; [exact ex_some_codes|]. split; [exact ex_some_asked|]. auto. }
  exists a, b, c, d, e.
  split; [apply K; [cbn; tauto|assumption]|]. split; [exact (need_funding m ex_call I)|]. split; [exact (need_collateral m ex_call "a" (or_introl eq_refl))|]. split; [apply given_some; assumption|]. split; [apply given_some; assumption|].
  split; [apply K; [cbn; tauto|assumption]|]. split; [exact (need_collateral m ex_fut "a" (or_introl eq_refl))|]. split; [apply given_some; assumption|].
  split; [apply K; [cbn; tauto|assumption]|]. split; [exact (need_issuer m ex_paper "ktb" 1 1 None "k" eq_refl eq_refl)|]. split; [apply given_some; assumption|].
  split; [apply K; [cbn; tauto|assumption]|]. split; [exact (need_first m ex_fxf _ _ eq_refl)|]. split; [apply given_some; assumption|].
  split; [apply K; [cbn; tauto|assumption]|]. split; [exact (need_first m ex_fwd _ _ eq_refl)|]. split; [apply given_some; assumption|]. cbn. intuition discriminate.
Qed.

Print Assumptions c215_view.
Print Assumptions c216_view.
Print Assumptions c217_view.
Print Assumptions c215_option.
Print Assumptions c216_futures.
Print Assumptions c216_option.
Print Assumptions c216_fx_futures.
Print Assumptions c217_futures.
Print Assumptions c217_option.
Print Assumptions c216_bond.
Print Assumptions c216_swap.
