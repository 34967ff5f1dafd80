(** QGroupProofs.v -- an instrument's pricer reads the same in every engine. *)
From Coq Require Import ZArith Ascii String.
From Coq Require Import List Bool Lia Permutation.
From Flocq Require Import Core IEEE754.BinarySingleNaN.
From Verif Require Import Base FloatModel KrxModel QDateModel QInterpModel QDivModel QCurveModel QMoneyModel QBondModel QSwapModel QSwapProps QFutModel QInstModel QInstSpec QInstProps QMatchProps QVolModel QEngModel QEngSpec QEngProofs QLoadModel QLoadSpec QLoadProofs QLoadProps QPricerProps QGenModel QGenProofs.
Import ListNotations.
Open Scope Z_scope.

Lemma curve_from_one : forall f eval d n c c', curve_from f eval d n c -> curve_from f eval d n c' -> c = c'.
Proof. intros f eval d n c c' (v & A & B) (v' & A' & B'). congruence. Qed.
Lemma div_from_one : forall eval d u x x', div_from eval d u x -> div_from eval d u x' -> x = x'.
Proof. intros eval d u x x' (v & s & A & B & C) (v' & s' & A' & B' & C'). congruence. Qed.
Lemma vol_from_one : forall d e k tenors money u s s', vol_from d e k tenors money u s -> vol_from d e k tenors money u s' -> s = s'.
Proof. intros d e k tenors money u s s' (s0 & A & B) (s0' & A' & B'). destruct (da_const_vol d u); [congruence|]. destruct B as (v & B1 & B2). destruct B' as (v' & B1' & B2'). congruence. Qed.
Lemma env_view : forall m u v, env_of m u v = match mk_curve m (vt_coll v), mk_curve m (vt_borrow v), equity_view m u with Some a, Some b, Some (x, _, d) => Some (VolEnv (w_date (mk_world m)) a b x d) | _, _, _ => None end.
Proof. intros m u v. unfold env_of, equity_view. destruct (mk_curve m (vt_coll v)), (mk_curve m (vt_borrow v)), (equity m u); reflexivity. Qed.
Lemma asked_dec : forall is u, asked is u \/ ~ asked is u.
Proof. intros is u. rewrite <- und_in. destruct (in_dec string_dec u (all_underlyings is)); auto. Qed.

Section Two.
Context (f_exp : f32 -> f32) (eval : odt) (d : data) (mp : match_parameter) (k : stickyness) (tenors : list (list ascii)) (money : list f32) (sh1 sh2 : list nat -> list nat) (is1 is2 : list instrument) (l1 l2 : loaded).
Hypothesis L1 : with_parameter_data f_exp eval d mp k tenors money sh1 is1 = Ret (ROk l1).
Hypothesis L2 : with_parameter_data f_exp eval d mp k tenors money sh2 is2 = Ret (ROk l2).

(** two markets have the same for what both have *)
Record alike (m1 m2 : market) : Prop := {
  al_date : w_date (mk_world m1) = w_date (mk_world m2);
  al_curve : forall n c1 c2, mk_curve m1 n = Some c1 -> mk_curve m2 n = Some c2 -> c1 = c2;
  al_equity : forall u, asked is1 u -> asked is2 u -> equity_view m1 u = equity_view m2 u;
  al_vol : forall u, vol_asked is1 u -> vol_asked is2 u -> exists v1 v2 a b, mk_vol m1 u = Some v1 /\ mk_vol m2 u = Some v2 /\ vt_surface v1 = vt_surface v2 /\
    mk_curve m1 (vt_coll v1) = Some a /\ mk_curve m2 (vt_coll v2) = Some a /\ mk_curve m1 (vt_borrow v1) = Some b /\ mk_curve m2 (vt_borrow v2) = Some b;
  al_rate : forall x j1 j2, fx_asked is1 x -> fx_asked is2 x -> ld_fx l1 x = Some j1 -> ld_fx l2 x = Some j2 -> rate_view m1 j1 = rate_view m2 j2 }.

Lemma equity_read : forall is sh l, with_parameter_data f_exp eval d mp k tenors money sh is = Ret (ROk l) -> forall u, asked is u -> exists v dv, equity_view (ld_market l) u = Some (v, eval, dv) /\ da_stock d u = Some v /\ match dv with Some x => div_from eval d u x | None => da_div d u = None end.
Proof using.
  intros is sh l L u A. destruct (c196_prices _ _ _ _ _ _ _ _ _ l L) as (_ & PR & _). destruct (c196_dividends _ _ _ _ _ _ _ _ _ l L) as (DV & DN & _). destruct (PR u A) as (v & p & V & E & P1 & P2 & P3). unfold equity_view. rewrite E. cbn [option_map]. unfold price_view. rewrite P1, P2, P3.
  destruct (da_div d u) as [dd|] eqn:DD.
  - destruct (DV u A) as (j & x & J & N & F); [congruence|]. exists v, (Some x). split; [unfold div_at; rewrite J, N; reflexivity|]. split; [exact V|exact F].
  - exists v, None. rewrite (DN u (or_intror DD)). split; [reflexivity|]. split; [exact V|reflexivity].
Qed.
Lemma loaded_alike : alike (ld_market l1) (ld_market l2).
Proof using L1 L2.
  assert (EQ : forall u, asked is1 u -> asked is2 u -> equity_view (ld_market l1) u = equity_view (ld_market l2) u).
  { intros u A B. destruct (equity_read _ _ _ L1 u A) as (v1 & d1 & E1 & V1 & D1). destruct (equity_read _ _ _ L2 u B) as (v2 & d2 & E2 & V2 & D2). rewrite E1, E2. assert (v1 = v2) by congruence. subst v2. repeat f_equal.
    destruct d1 as [x1|]; destruct d2 as [x2|]; [f_equal; exact (div_from_one _ _ _ _ _ D1 D2)| | |reflexivity]; [destruct D1 as (? & ? & Q & _)|destruct D2 as (? & ? & Q & _)]; congruence. }
  assert (DA : w_date (mk_world (ld_market l1)) = w_date (mk_world (ld_market l2))) by (destruct (c196_prices _ _ _ _ _ _ _ _ _ l1 L1) as (D1 & _); destruct (c196_prices _ _ _ _ _ _ _ _ _ l2 L2) as (D2 & _); congruence).
  assert (CU : forall n c1 c2, mk_curve (ld_market l1) n = Some c1 -> mk_curve (ld_market l2) n = Some c2 -> c1 = c2).
  { intros n c1 c2 A B. apply (c196_curves _ _ _ _ _ _ _ _ _ l1 L1) in A. apply (c196_curves _ _ _ _ _ _ _ _ _ l2 L2) in B. exact (curve_from_one _ _ _ _ _ _ (proj2 A) (proj2 B)). }
  split; [exact DA|exact CU|exact EQ| |].
  - intros u A B. destruct (c196_surfaces _ _ _ _ _ _ _ _ _ l1 L1) as [S1 _]. destruct (c196_surfaces _ _ _ _ _ _ _ _ _ l2 L2) as [S2 _]. destruct (S1 u A) as (v1 & e1 & V1 & C1 & B1 & E1 & F1). destruct (S2 u B) as (v2 & e2 & V2 & C2 & B2 & E2 & F2).
    assert (NC : vt_coll v1 = vt_coll v2) by congruence. assert (NB : vt_borrow v1 = vt_borrow v2) by congruence. rewrite env_view in E1, E2.
    destruct (mk_curve (ld_market l1) (vt_coll v1)) as [a1|] eqn:X1; [|discriminate E1]. destruct (mk_curve (ld_market l1) (vt_borrow v1)) as [b1|] eqn:Y1; [|discriminate E1].
    destruct (mk_curve (ld_market l2) (vt_coll v2)) as [a2|] eqn:X2; [|discriminate E2]. destruct (mk_curve (ld_market l2) (vt_borrow v2)) as [b2|] eqn:Y2; [|discriminate E2].
    assert (a1 = a2) by (rewrite NC in X1; exact (CU _ _ _ X1 X2)). assert (b1 = b2) by (rewrite NB in Y1; exact (CU _ _ _ Y1 Y2)). subst a2 b2.
    assert (AU : forall is, vol_asked is u -> asked is u). { intros is (i & I & U). exists i. split; [exact I|]. unfold vol_underlyings in U. unfold underlyings. destruct (in_kind i); try contradiction U. exact U. }
    rewrite <- (EQ u (AU _ A) (AU _ B)), <- DA in E2. assert (e1 = e2) by congruence. subst e2. exists v1, v2, a1, b1. do 2 (split; [assumption|]). split; [exact (vol_from_one _ _ _ _ _ _ _ _ F1 F2)|]. auto.
  - intros x j1 j2 A B J1 J2. destruct (c196_rates _ _ _ _ _ _ _ _ _ l1 L1 x A) as (r1 & j1' & R1 & Q1 & N1). destruct (c196_rates _ _ _ _ _ _ _ _ _ l2 L2 x B) as (r2 & j2' & R2 & Q2 & N2). assert (j1' = j1) by congruence. assert (j2' = j2) by congruence. subst j1' j2'. unfold rate_view. rewrite N1, N2.
    assert (r1 = r2) by congruence. subst r2. reflexivity.
Qed.
(** the price of an underlying that both have is set *)
Lemma set_equity : forall is sh l, with_parameter_data f_exp eval d mp k tenors money sh is = Ret (ROk l) -> forall u x m' v, price_set (ld_market l) u x m' -> equity_view m' v = if String.eqb v u then option_map (fun p => (x, snd (fst p), snd p)) (equity_view (ld_market l) u) else equity_view (ld_market l) v.
Proof using.
  intros is sh l L u x m' v (j & p & J & N & S & _ & WD & _ & _ & ME & _). destruct (c196_prices _ _ _ _ _ _ _ _ _ l L) as (_ & _ & _ & INJ). unfold equity_view, equity. rewrite ME. unfold price_view, div_at. rewrite WD. destruct (String.eqb_spec v u) as [->|NE].
  - rewrite J. rewrite S, Nat.eqb_refl, N. reflexivity.
  - destruct (mk_equity (ld_market l) v) as [i|] eqn:VI; [|reflexivity]. rewrite S. destruct (Nat.eqb_spec i j) as [->|NI]; [contradiction NE; exact (INJ v u j VI J)|reflexivity].
Qed.
Lemma set_rate : forall is sh l, with_parameter_data f_exp eval d mp k tenors money sh is = Ret (ROk l) -> forall u x m' y j, price_set (ld_market l) u x m' -> fx_asked is y -> ld_fx l y = Some j -> rate_view m' j = rate_view (ld_market l) j.
Proof using.
  intros is sh l L u x m' y j (i & p & J & N & S & _ & WD & _) A R. unfold rate_view, price_view, div_at. rewrite WD, S. destruct (Nat.eqb_spec j i) as [->|NE]; [|reflexivity]. exfalso.
  destruct (load_ok f_exp eval d mp k tenors money sh is l L) as (fxs & names & curves1 & divs & curves2 & prices & vols & fx_vols & quantos & E1 & E2 & E3 & E4 & E5 & E6 & E7 & E8 & E9 & MC & MW & ME & MD & MV & LF & _).
  rewrite ME in J. rewrite LF in R. destruct (place String.eqb prices u) as [q|] eqn:P; [|discriminate J]. cbn [option_map] in J. apply some_inj in J.
  assert (B : forall (l : list (fx_code * f32)) c n, place fx_eqb l c = Some n -> (n < List.length l)%nat). { clear. induction l as [|[a b] l IH]; intros c n H; [discriminate H|]. cbn [place] in H. destruct (fx_eqb c a); [apply some_inj in H; subst n; cbn; lia|]. destruct (place fx_eqb l c) as [m|] eqn:E; [|discriminate H]. cbn in H. apply some_inj in H. subst n. cbn. apply IH in E. lia. }
  apply B in R. lia.
Qed.
Lemma set_alike : forall u x m1 m2, price_set (ld_market l1) u x m1 -> price_set (ld_market l2) u x m2 -> asked is1 u -> asked is2 u -> alike m1 m2.
Proof using L1 L2.
  intros u x m1 m2 S1 S2 A1 A2. destruct loaded_alike as [DA CU EQ VO RA]. pose proof (set_equity _ _ _ L1 u x m1) as Q1. pose proof (set_equity _ _ _ L2 u x m2) as Q2. pose proof (set_rate _ _ _ L1 u x m1) as T1. pose proof (set_rate _ _ _ L2 u x m2) as T2.
  assert (K1 := S1). assert (K2 := S2). destruct K1 as (j1 & p1 & _ & _ & _ & WD1 & _ & _ & _ & ME1 & MD1 & MC1 & MV1). destruct K2 as (j2 & p2 & _ & _ & _ & WD2 & _ & _ & _ & ME2 & MD2 & MC2 & MV2). split.
  - congruence.
  - intros n c1 c2 X Y. rewrite MC1 in X. rewrite MC2 in Y. exact (CU n c1 c2 X Y).
  - intros v B1 B2. rewrite (Q1 v S1), (Q2 v S2), (EQ u A1 A2). destruct (String.eqb v u); [reflexivity|exact (EQ v B1 B2)].
  - intros v B1 B2. rewrite MC1, MC2, MV1, MV2. exact (VO v B1 B2).
  - intros y i1 i2 B1 B2 R1 R2. rewrite (T1 y i1 S1 B1 R1), (T2 y i2 S2 B2 R2). exact (RA y i1 i2 B1 B2 R1 R2).
Qed.

(** what the pricer needs is there *)
Definition wired (l : loaded) (w : wiring) : Prop :=
  let has n := mk_curve (ld_market l) n <> None in let hasf f := match f with Some n => has n | None => True end in let stock u := mk_equity (ld_market l) u <> None in
  match w with
  | WBond a f _ => has a /\ hasf f
  | WFutures e c b => stock e /\ has c /\ has b
  | WOption e v a c b _ => stock e /\ has a /\ has c /\ has b
  | WKtbf a c => has a /\ has c
  | WFxFutures _ u f => has u /\ has f
  | WSwap a b f _ _ => has a /\ has b /\ hasf f
  | WStock e => stock e
  | WCash => True
  end.
Lemma stock_ok : forall l u e, equity_named l u = Ret (ROk e) -> e = u /\ mk_equity (ld_market l) u <> None.
Proof using. intros l u e H. unfold equity_named in H. destruct (mk_equity (ld_market l) u); [|discriminate H]. split; congruence. Qed.
Lemma index_wired : forall l i x p, index_parts l mp i x = Ret (ROk p) -> match fst p with Some n => mk_curve (ld_market l) n <> None | None => True end.
Proof using. intros l i x p H. unfold index_parts in H. destruct x as [ix|]; [|injection H as <-; exact I]. rstep H n E. rstep H f F. apply named_ok in F. destruct F as [-> F]. destruct (ld_past l (snd ix)); [|discriminate H]. injection H as <-. exact F. Qed.
Lemma created_wired : forall an l i w, create_pricer an l mp i = Ret (ROk w) -> wired l w.
Proof using.
  intros an l i w H. unfold create_pricer in H. destruct (in_kind i) as [us uc|is' t r x|  |tag|t fc x fx|uc fx|ty u uc settled q|u|] eqn:K.
  - unfold futures_pricer in H. rstep H u E. destruct (mk_equity (ld_market l) u) eqn:Q; [|discriminate H]. rstep H cs E1. rstep H c E2. rstep H bs E3. rstep H b E4. rstep H c' E5. rstep H b' E6. injection H as <-. apply named_ok in E5, E6. destruct E5 as [-> E5]. destruct E6 as [-> E6]. cbn. split; [congruence|auto].
  - unfold bond_pricer in H. rstep H n E1. rstep H a E2. rstep H y E3. rstep H p E4. injection H as <-. apply named_ok in E2. destruct E2 as [-> E2]. cbn. split; [exact E2|exact (index_wired _ _ _ _ E4)].
  - discriminate H.
  - unfold ktbf_pricer in H. rstep H a E1. rstep H cs E2. rstep H c E3. rstep H c' E4. injection H as <-. apply named_ok in E1, E4. destruct E1 as [-> E1]. destruct E4 as [-> E4]. cbn. auto.
  - unfold swap_pricer in H. rstep H n E1. rstep H a E2. rstep H n' E3. rstep H b E4. rstep H y E5. rstep H p E6. rstep H rr E7. injection H as <-. apply named_ok in E2, E4. destruct E2 as [-> E2]. destruct E4 as [-> E4]. cbn. split; [exact E2|]. split; [exact E4|exact (index_wired _ _ _ _ E6)].
  - unfold fx_futures_pricer in H. destruct (ld_fx l fx) as [rt|]; [|discriminate H]. rstep H n E1. rstep H a E2. rstep H n' E3. rstep H b E4. injection H as <-. apply named_ok in E2, E4. destruct E2 as [-> E2]. destruct E4 as [-> E4]. cbn. auto.
  - unfold option_pricer in H. rstep H u' E. rstep H e E0. destruct (mk_vol (ld_market l) u'); [|discriminate H]. rstep H n E1. rstep H a E2. rstep H cs E3. rstep H c E4. rstep H c' E5. rstep H bs E6. rstep H b E7. rstep H b' E8. rstep H uc' E9. rstep H q' E10. destruct an; [|discriminate H]. injection H as <-.
    apply stock_ok in E0. destruct E0 as [-> E0]. apply named_ok in E2, E5, E8. destruct E2 as [-> E2]. destruct E5 as [-> E5]. destruct E8 as [-> E8]. cbn. auto.
  - rstep H e E. injection H as <-. apply stock_ok in E. destruct E as [-> E]. exact E.
  - injection H as <-. exact I.
Qed.
Lemma indexed_one : forall x f p f' p', indexed mp d x f p -> indexed mp d x f' p' -> f = f' /\ p = p'.
Proof using. intros [ix|] f p f' p' H H'; cbn in *; [destruct H as (n & c & A & B & C & D); destruct H' as (n' & c' & A' & B' & C' & D'); split; congruence|destruct H, H'; split; congruence]. Qed.
(** so the pricers of an instrument in the two engines read the same *)
Lemma view_same : forall an1 an2 m1 m2 i w1 w2, alike m1 m2 -> mk_curve m1 = mk_curve (ld_market l1) -> mk_curve m2 = mk_curve (ld_market l2) -> ~ asked is1 dummy -> ~ asked is2 dummy -> In i is1 -> In i is2 ->
  create_pricer an1 l1 mp i = Ret (ROk w1) -> create_pricer an2 l2 mp i = Ret (ROk w2) -> view_of m1 w1 = view_of m2 w2.
Proof using L1 L2.
  intros an1 an2 m1 m2 i w1 w2 AL M1 M2 D1 D2 I1 I2 C1 C2. pose proof (created_wired _ _ _ _ C1) as W1. pose proof (created_wired _ _ _ _ C2) as W2.
  pose proof (c198_right f_exp eval d mp k tenors money sh1 is1 an1 l1 L1 i w1 D1 I1 C1) as R1. pose proof (c198_right f_exp eval d mp k tenors money sh2 is2 an2 l2 L2 i w2 D2 I2 C2) as R2. destruct AL as [DA CU EQ VO RA].
  assert (CV : forall n, mk_curve (ld_market l1) n <> None -> mk_curve (ld_market l2) n <> None -> mk_curve m1 n = mk_curve m2 n).
  { intros n A B. rewrite <- M1 in A. rewrite <- M2 in B. destruct (mk_curve m1 n) as [c1|] eqn:X; [|contradiction A; reflexivity]. destruct (mk_curve m2 n) as [c2|] eqn:Y; [|contradiction B; reflexivity]. f_equal. exact (CU n c1 c2 X Y). }
  assert (EV : forall u, mk_equity (ld_market l1) u <> None -> mk_equity (ld_market l2) u <> None -> equity_view m1 u = equity_view m2 u).
  { intros u A B. apply EQ; [destruct (asked_dec is1 u) as [Q|Q]|destruct (asked_dec is2 u) as [Q|Q]]; auto; exfalso; [destruct (c196_prices _ _ _ _ _ _ _ _ _ l1 L1) as (_ & _ & N & _); exact (A (N u Q))|destruct (c196_prices _ _ _ _ _ _ _ _ _ l2 L2) as (_ & _ & N & _); exact (B (N u Q))]. }
  unfold right_pricer in R1, R2. destruct (in_kind i) as [us uc|issuer t r x|  |tag|t fc x fx|uc fx|ty u uc settled q|u|] eqn:K; destruct w1 as [a1 f1 p1|e1 c1 b1|e1 v1 a1 c1 b1 q1|a1 c1|r1 u1 f1|a1 b1 f1 p1 r1|e1|]; try contradiction R1; destruct w2 as [a2 f2 p2|e2 c2 b2|e2 v2 a2 c2 b2 q2|a2 c2|r2 u2 f2|a2 b2 f2 p2 r2|e2|]; try contradiction R2; cbn [view_of wired] in *.
  - destruct R1 as (u & us1 & U1 & -> & X1 & Y1). destruct R2 as (u' & us2 & U2 & -> & X2 & Y2). assert (u' = u) by congruence. subst u'. assert (c2 = c1) by congruence. assert (b2 = b1) by congruence. subst c2 b2. destruct W1 as (A1 & A2 & A3). destruct W2 as (B1 & B2 & B3). rewrite DA, (EV u A1 B1), (CV c1 A2 B2), (CV b1 A3 B3). reflexivity.
  - destruct R1 as [X1 Y1]. destruct R2 as [X2 Y2]. destruct (indexed_one _ _ _ _ _ Y1 Y2) as [-> ->]. assert (a2 = a1) by congruence. subst a2. destruct W1 as (A1 & A2). destruct W2 as (B1 & B2). rewrite DA, (CV a1 A1 B1). destruct f2 as [n|]; [|reflexivity]. cbn [opt_curve]. rewrite (CV n A2 B2). reflexivity.
  - destruct R1 as (X1 & Y1 & Z1 & F1). destruct R2 as (X2 & Y2 & Z2 & F2). destruct (indexed_one _ _ _ _ _ Z1 Z2) as [-> ->]. assert (a2 = a1) by congruence. assert (b2 = b1) by congruence. subst a2 b2. destruct W1 as (A1 & A2 & A3). destruct W2 as (B1 & B2 & B3).
    assert (RV : match r1 with Some j => rate_view m1 j | None => None end = match r2 with Some j => rate_view m2 j | None => None end).
    { destruct fx as [y|]; [|subst r1 r2; reflexivity]. destruct F1 as [F1 G1]. destruct F2 as [F2 G2]. destruct r1 as [j1|]; [|contradiction G1; reflexivity]. destruct r2 as [j2|]; [|contradiction G2; reflexivity]. apply (RA y); [| |congruence|congruence]; exists i; (split; [assumption|]); unfold fx_codes; rewrite K; left; reflexivity. }
    rewrite DA, RV, (CV a1 A1 B1), (CV b1 A2 B2). destruct f2 as [n|]; [|reflexivity]. cbn [opt_curve]. rewrite (CV n A3 B3). reflexivity.
  - destruct R1 as (F1 & X1 & Y1). destruct R2 as (F2 & X2 & Y2). assert (u2 = u1) by congruence. assert (f2 = f1) by congruence. subst u2 f2. destruct W1 as (A1 & A2). destruct W2 as (B1 & B2). assert (RV : rate_view m1 r1 = rate_view m2 r2) by (apply (RA fx); [| |exact F1|exact F2]; exists i; (split; [assumption|]); unfold fx_codes; rewrite K; left; reflexivity).
    rewrite DA, RV, (CV u1 A1 B1), (CV f1 A2 B2). reflexivity.
  - destruct R1 as (-> & -> & S1 & X1 & Y1 & Z1 & N1 & P1). destruct R2 as (-> & -> & S2 & X2 & Y2 & Z2 & N2 & P2). assert (a2 = a1) by congruence. assert (c2 = c1) by congruence. assert (b2 = b1) by congruence. subst a2 c2 b2. destruct W1 as (A1 & A2 & A3 & A4). destruct W2 as (B1 & B2 & B3 & B4).
    assert (QQ : q1 = q2). { destruct (ccy_cases uc (ccy i)) as [[_ Q]|[_ Q]]; [rewrite (N1 Q), (N2 Q); reflexivity|]. destruct (P1 Q) as (x & y & O1 & O2 & O3). destruct (P2 Q) as (x' & y' & O1' & O2' & O3'). congruence. }
    assert (VV : vol_view m1 u = vol_view m2 u).
    { destruct (VO u) as (v1 & v2 & a & b & V1 & V2 & SS & T1 & T2 & T3 & T4); [exists i; split; [exact I1|]; unfold vol_underlyings; rewrite K; left; reflexivity|exists i; split; [exact I2|]; unfold vol_underlyings; rewrite K; left; reflexivity|].
      unfold vol_view. rewrite V1, V2. cbn [option_map]. rewrite !env_view, T1, T2, T3, T4, SS, DA, (EV u A1 B1). reflexivity. }
    rewrite DA, QQ, VV, (EV u A1 B1), (CV a1 A2 B2), (CV c1 A3 B3), (CV b1 A4 B4). reflexivity.
  - subst e1 e2. rewrite DA, (EV _ W1 W2). reflexivity.
  - rewrite DA. reflexivity.
Qed.
End Two.

Lemma pricer_map_at : forall fo ws c w, NoDup (map fst ws) -> In (c, w) ws -> pricer_map fo ws c = Some (pricer_of fo w).
Proof.
  intros fo ws c w. unfold pricer_map. assert (K : forall ws acc, ~ In c (map fst ws) -> fold_left (fun m kw => put m (fst kw) (pricer_of fo (snd kw))) ws acc c = acc c).
  { induction ws0 as [|[a b] l IH]; intros acc N; [reflexivity|]. cbn [fold_left fst snd map] in *. rewrite IH by (intro; apply N; right; assumption). apply put_other. intro. apply N. left. congruence. }
  generalize (fun _ : string => @None pricer). induction ws as [|[a b] l IH]; intros acc ND I; [contradiction I|]. cbn [fold_left fst snd map] in *. inversion ND as [|? ? N1 N2]; subst. destruct I as [Q|I].
  - injection Q as -> ->. rewrite K by exact N1. apply put_same.
  - apply IH; assumption.
Qed.
