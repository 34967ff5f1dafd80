(** QPricerProps.v -- C198: the pricers an engine makes. *)
From Coq Require Import ZArith Ascii String.
From Coq Require Import List Bool Lia.
From Flocq Require Import Core IEEE754.BinarySingleNaN.
From Verif Require Import Base FloatModel KrxModel QDateModel QInterpModel QDivModel QCurveModel QMoneyModel QBondModel QSwapModel QSwapProps QFutModel QInstModel QInstSpec QInstProps QMatchProps QVolModel QEngModel QEngSpec QEngProps QEngBumpProps QLoadModel QLoadSpec QLoadProofs QLoadProps.
Import ListNotations.
Open Scope Z_scope.

(** what the pricer of an instrument has to refer to *)
Definition indexed (mp : match_parameter) (d : data) (x : option (string * string)) (f : option string) (p : option closes) : Prop :=
  match x with
  | None => f = None /\ p = None
  | Some ix => exists n c, f = Some n /\ mp_index mp (fst ix) = Some n /\ p = Some c /\ da_past d (snd ix) = Some c
  end.
Definition right_pricer (mp : match_parameter) (d : data) (l : loaded) (i : instrument) (w : wiring) : Prop :=
  match in_kind i, w with
  | KFutures us _, WFutures e c b => exists u us', us = u :: us' /\ e = u /\ mp_collateral mp u = Some c /\ mp_borrowing mp u = Some b
  | KOption _ u uc settled _, WOption e v a c b q => e = u /\ v = u /\ settled = false /\ mp_funding mp (ccy i) = Some a /\ mp_collateral mp u = Some c /\ mp_borrowing mp u = Some b /\
      (uc = ccy i -> q = None) /\ (uc <> ccy i -> exists x y, q = Some (Quanto (constant_vol x) y) /\ da_fx_vol d (FxCode uc (ccy i)) = Some x /\ da_corr d (u, FxCode uc (ccy i)) = Some y)
  | KBond issuer t r x, WBond a f p => mp_bond mp (issuer, t, r, ccy i) = Some a /\ indexed mp d x f p
  | KFxFutures uc x, WFxFutures r u f => ld_fx l x = Some r /\ mp_crs mp uc = Some u /\ mp_crs mp (ccy i) = Some f
  | KSwap _ fc x fx, WSwap a b f p r => mp_crs mp (ccy i) = Some a /\ mp_crs mp fc = Some b /\ indexed mp d x f p /\ match fx with None => r = None | Some y => r = ld_fx l y /\ r <> None end
  | KStock _, WStock e => e = code i
  | KCash, WCash => True
  | _, _ => False
  end.

Lemma found_ok : forall A (o : option A) x, found o = ROk x -> o = Some x.
Proof. intros A [a|] x H; [injection H as ->; reflexivity|discriminate H]. Qed.
Lemma named_ok : forall l n a, curve_named l n = Ret (ROk a) -> a = n /\ mk_curve (ld_market l) n <> None.
Proof. intros l n a H. unfold curve_named in H. destruct (mk_curve (ld_market l) n); [injection H as ->; split; [reflexivity|discriminate]|discriminate H]. Qed.
Lemma ret_ok : forall A (r : rresult A) x, Ret r = Ret (ROk x) -> r = ROk x.
Proof. intros A r x H. congruence. Qed.
Lemma collect_head : forall A B (f : A -> option B) x l y ys, collect (fun u => found (f u)) (x :: l) = ROk (y :: ys) -> f x = Some y.
Proof. intros A B f x l y ys H. cbn [collect] in H. destruct (f x) as [z|]; [|discriminate H]. cbn [found] in H. destruct (collect (fun u => found (f u)) l); [|discriminate H]. injection H as -> _. reflexivity. Qed.
Lemma head_ok : forall A (l : list A) x, head l = Ret (ROk x) -> exists l', l = x :: l'.
Proof. intros A [|y l] x H; [discriminate H|]. injection H as ->. exists l. reflexivity. Qed.
Ltac rstep H x E := apply rbind_ok in H; destruct H as (x & E & H).

Section Pricers.
Context (f_exp : f32 -> f32) (eval : odt) (d : data) (mp : match_parameter) (k : stickyness) (tenors : list (list ascii)) (money : list f32) (shuffle : list nat -> list nat) (is : list instrument) (analytic : bool) (l : loaded).
Hypothesis L : with_parameter_data f_exp eval d mp k tenors money shuffle is = Ret (ROk l).

Lemma no_dummy : ~ asked is dummy -> mk_curve (ld_market l) dummy = None.
Proof using L. intro N. destruct (mk_curve (ld_market l) dummy) as [c|] eqn:X; [|reflexivity]. apply (c196_curves f_exp eval d mp k tenors money shuffle is l L) in X. destruct X as [[Q|[Q _]] _]; [contradiction|congruence]. Qed.
Lemma indexed_ok : forall i x p, ~ asked is dummy -> rate_index i = ROk x -> index_parts l mp i x = Ret (ROk p) -> indexed mp d x (fst p) (snd p).
Proof using L.
  intros i x p ND R H. unfold index_parts in H. unfold indexed. destruct x as [ix|]; [|injection H as <-; auto]. rstep H n E. rstep H f F. apply named_ok in F. destruct F as [-> F]. destruct (c196_quantos f_exp eval d mp k tenors money shuffle is l L) as (_ & _ & LP). rewrite LP in H.
  destruct (da_past d (snd ix)) as [c|]; [|discriminate H]. injection H as <-. exists n, c. split; [reflexivity|]. split; [|auto]. apply ret_ok in E. unfold index_name in E. unfold rate_index in R. destruct (in_kind i); try discriminate R; injection R as ->; apply found_ok; exact E.
Qed.
(** C198: a pricer that is made refers to the prices, curves, surface, quanto data and
    fixings that the match parameter has for the instrument *)
Theorem c198_right : forall i w, ~ asked is dummy -> In i is -> create_pricer analytic l mp i = Ret (ROk w) -> right_pricer mp d l i w.
Proof using L.
  intros i w ND I H. pose proof (no_dummy ND) as DU. unfold create_pricer in H. unfold right_pricer. destruct (in_kind i) as [us uc|is' t r x|  |tag|t fc x fx|uc fx|ty u uc settled q|u|] eqn:K.
  - unfold futures_pricer, underlyings in H. rewrite K in H. rstep H u E. apply head_ok in E. destruct E as [us' ->]. destruct (mk_equity (ld_market l) u); [|discriminate H]. rstep H cs E1. rstep H c E2. rstep H bs E3. rstep H b E4. rstep H c' E5. rstep H b' E6. injection H as <-.
    apply named_ok in E5, E6. destruct E5 as [-> _]. destruct E6 as [-> _]. apply head_ok in E2, E4. destruct E2 as [cs' ->]. destruct E4 as [bs' ->]. apply ret_ok in E1, E3. unfold collateral_names, borrowing_names, underlyings in E1, E3. rewrite K in E1, E3. exists u, us'.
    split; [reflexivity|]. split; [reflexivity|]. split; [exact (collect_head _ _ _ _ _ _ _ E1)|exact (collect_head _ _ _ _ _ _ _ E3)].
  - unfold bond_pricer in H. rstep H n E1. rstep H a E2. rstep H y E3. rstep H p E4. injection H as <-. apply named_ok in E2. destruct E2 as [-> E2]. apply ret_ok in E1, E3. unfold discount_name in E1. rewrite K in E1. assert (Y : y = x) by (unfold rate_index in E3; rewrite K in E3; congruence). subst y. split.
    + unfold ccy. destruct (mp_bond mp (is', t, r, in_ccy i)) as [m|]; [congruence|]. exfalso. apply E2. congruence.
    + exact (indexed_ok i x p ND E3 E4).
  - discriminate H.
  - unfold ktbf_pricer in H. rstep H a E1. rstep H cs E2. rstep H c E3. apply ret_ok in E2. unfold collateral_names, underlyings in E2. rewrite K in E2. injection E2 as <-. discriminate E3.
  - unfold swap_pricer in H. rstep H n E1. rstep H a E2. rstep H n' E3. rstep H b E4. rstep H y E5. rstep H p E6. rstep H r E7. injection H as <-. apply named_ok in E2, E4. destruct E2 as [-> E2]. destruct E4 as [-> E4]. apply ret_ok in E1, E3, E5. assert (Y : y = x) by (unfold rate_index in E5; rewrite K in E5; congruence). subst y.
    unfold crs_name in E1. unfold float_crs_name in E3. rewrite K in E1, E3. split; [|split; [|split]].
    + destruct t; [exfalso; apply E2; congruence|..]; apply found_ok; exact E1.
    + destruct t; [exfalso; apply E4; congruence|..]; apply found_ok; exact E3.
    + exact (indexed_ok i x p ND E5 E6).
    + destruct fx as [y|]; [|congruence]. destruct (ld_fx l y) as [j|]; [|discriminate E7]. split; congruence.
  - unfold fx_futures_pricer in H. destruct (ld_fx l fx) as [r|]; [|discriminate H]. rstep H n E1. rstep H u E2. rstep H n' E3. rstep H f E4. injection H as <-. apply named_ok in E2, E4. destruct E2 as [-> _]. destruct E4 as [-> _]. apply ret_ok in E1, E3. unfold crs_name in E3. unfold float_crs_name in E1. rewrite K in E1, E3.
    split; [reflexivity|]. split; apply found_ok; assumption.
  - unfold option_pricer, underlyings in H. rewrite K in H. rstep H u0 E0. injection E0 as <-. rstep H e E1. unfold equity_named in E1. destruct (mk_equity (ld_market l) u) as [je|]; [|discriminate E1]. injection E1 as <-. destruct (mk_vol (ld_market l) u); [|discriminate H].
    rstep H n E2. rstep H a E3. rstep H cs E4. rstep H c E5. rstep H c' E6. rstep H bs E7. rstep H b E8. rstep H b' E9. rstep H uc' E10. rstep H q' E11. destruct analytic; [|discriminate H]. injection H as <-.
    apply named_ok in E3, E6, E9. destruct E3 as [-> E3]. destruct E6 as [-> _]. destruct E9 as [-> _]. apply head_ok in E5, E8. destruct E5 as [cs' ->]. destruct E8 as [bs' ->]. apply ret_ok in E2, E4, E7, E10. unfold und_ccy in E10. rewrite K in E10. injection E10 as <-.
    unfold discount_name in E2. unfold collateral_names, underlyings in E4. unfold borrowing_names, underlyings in E7. rewrite K in E2, E4, E7. split; [reflexivity|]. split; [reflexivity|].
    destruct settled; [exfalso; apply E3; congruence|]. split; [reflexivity|]. split; [apply found_ok; exact E2|]. split; [exact (collect_head _ _ _ _ _ _ _ E4)|]. split; [exact (collect_head _ _ _ _ _ _ _ E7)|].
    destruct (ccy_cases uc (ccy i)) as [[Q ->]|[Q NE]]; rewrite Q in E11.
    + split; [intros _; congruence|]. intro W. congruence.
    + split; [intro W; congruence|]. intros _. destruct (ld_quanto l (u, FxCode uc (ccy i))) as [z|] eqn:Z; [|discriminate E11]. apply ret_ok in E11. assert (QZ : q' = Some z) by congruence. subst q'.
      destruct (c196_quantos f_exp eval d mp k tenors money shuffle is l L) as (QU & QN & _).
      assert (PA : pair_asked is (u, FxCode uc (ccy i)) \/ ~ pair_asked is (u, FxCode uc (ccy i))).
      { unfold pair_asked. pose proof (in_firsts is _ _ _ (c169_quanto_pairs is) (u, FxCode uc (ccy i))) as W. destruct (has pair_eqb (u, FxCode uc (ccy i)) (all_quanto_pairs is)) eqn:HA; [apply (has_in _ _ pair_decides) in HA; left; apply W; exact HA|apply (has_not _ _ pair_decides) in HA; right; rewrite <- W; exact HA]. }
      destruct PA as [PA|PA]; [|rewrite (QN _ PA) in Z; discriminate Z]. destruct (QU _ PA) as (x & y & X & Y & W). cbn [snd] in X. exists x, y. rewrite Z in W. auto.
  - rstep H e E. unfold equity_named in E. destruct (mk_equity (ld_market l) (code i)); [|discriminate E]. injection E as <-. injection H as <-. reflexivity.
  - injection H as <-. exact Logic.I.
Qed.

(** ** which instruments get one *)
(** no name is mapped to the stand-in for a curve that is not there *)
Definition proper : Prop := (forall u, mp_collateral mp u <> Some dummy) /\ (forall x, mp_bond mp x <> Some dummy) /\ (forall x, mp_index mp x <> Some dummy) /\ (forall c, mp_crs mp c <> Some dummy) /\ (forall c, mp_funding mp c <> Some dummy).
Definition fixings_known (x : option (string * string)) : Prop := forall ix, x = Some ix -> da_past d (snd ix) <> None.
Definition has_pricer (i : instrument) : Prop :=
  match in_kind i with
  | KFutures us _ => exists u us' b, us = u :: us' /\ (forall v, In v us -> mp_borrowing mp v <> None) /\ mp_borrowing mp u = Some b /\ curve_asked is mp b
  | KOption _ u uc settled q => settled = false /\ analytic = true /\ (uc <> ccy i -> q = Some (FxCode uc (ccy i)))
  | KBond issuer t r x => mp_bond mp (issuer, t, r, ccy i) <> None /\ fixings_known x
  | KSwap t _ x _ => t <> IRS /\ fixings_known x
  | KFxFutures _ _ | KCash => True
  | KStock _ => asked is (code i)
  | KKtbf _ | KBondFutures => False
  end.
Lemma needed_there : forall i n, In i is -> needs mp i (Some n) -> n <> dummy -> mk_curve (ld_market l) n <> None.
Proof using L. intros i n I N NE. destruct (proj1 (c196_curves f_exp eval d mp k tenors money shuffle is l L n)) as [c C]; [right; split; [exact NE|exists i; auto]|]. congruence. Qed.
Lemma mapped : forall i o, In i is -> needs mp i o -> o <> Some dummy -> exists n, o = Some n /\ curve_named l n = Ret (ROk n).
Proof using L.
  intros i [n|] I N NE; [|exfalso; apply (c197_success f_exp eval d mp k tenors money shuffle is l L); exact (lacks_name _ _ _ _ _ _ _ _ i I N)].
  exists n. split; [reflexivity|]. unfold curve_named. assert (Q := needed_there i n I N (fun E => NE (f_equal Some E))). destruct (mk_curve (ld_market l) n); [reflexivity|congruence].
Qed.
Lemma collect_some : forall A B (f : A -> option B) l0, (forall x, In x l0 -> f x <> None) -> exists ys, collect (fun u => found (f u)) l0 = ROk ys.
Proof using. intros A B f l0. induction l0 as [|x l0 IH]; intro H; cbn [collect]; [eexists; reflexivity|]. destruct (f x) as [y|] eqn:E; [|exfalso; exact (H x (or_introl eq_refl) E)]. cbn [found]. destruct (IH (fun z Z => H z (or_intror Z))) as [ys ->]. eexists. reflexivity. Qed.
Lemma collateral_head : forall i u us, proper -> In i is -> underlyings i = u :: us -> exists c cs, collateral_names mp i = ROk (c :: cs) /\ curve_named l c = Ret (ROk c).
Proof using L.
  intros i u us P I U. unfold collateral_names. destruct (collect_some _ _ (mp_collateral mp) (underlyings i)) as [ys Y].
  { intros v V. destruct (mapped i _ I (need_collateral mp i v V)) as (n & N & _); [apply P|congruence]. }
  rewrite Y. rewrite U in Y. destruct ys as [|c cs]; [cbn [collect] in Y; destruct (found (mp_collateral mp u)); [|discriminate Y]; destruct (collect (fun u0 => found (mp_collateral mp u0)) us); discriminate Y|].
  exists c, cs. split; [reflexivity|]. apply collect_head in Y. destruct (mapped i _ I (need_collateral mp i u ltac:(rewrite U; left; reflexivity))) as (n & N & C); [apply P|]. assert (n = c) as <- by congruence. exact C.
Qed.
Lemma indexed_made : forall i x, proper -> In i is -> rate_index i = ROk x -> fixings_known x -> exists p, index_parts l mp i x = Ret (ROk p).
Proof using L.
  intros i x P I R F. unfold index_parts. destruct x as [ix|]; [|eexists; reflexivity]. assert (Q : index_name mp i = found (mp_index mp (fst ix)) /\ index_of i = Some (fst ix)).
  { unfold index_name, index_of. unfold rate_index in R. destruct (in_kind i); try discriminate R; injection R as ->; auto. }
  destruct Q as [-> Q]. destruct (mapped i _ I (need_index mp i _ Q)) as (n & -> & C); [apply P|]. cbn [found rbind]. rewrite C. cbn [rbind]. destruct (c196_quantos f_exp eval d mp k tenors money shuffle is l L) as (_ & _ & ->). specialize (F ix eq_refl). destruct (da_past d (snd ix)); [eexists; reflexivity|congruence].
Qed.
Theorem c198_made : forall i, ~ asked is dummy -> proper -> In i is -> has_pricer i -> exists w, create_pricer analytic l mp i = Ret (ROk w).
Proof using L.
  intros i ND P I H. destruct (c196_prices f_exp eval d mp k tenors money shuffle is l L) as (_ & PR & _).
  assert (EQ : forall u, asked is u -> exists j, mk_equity (ld_market l) u = Some j) by (intros u A; destruct (PR u A) as (v & p & _ & E & _); unfold equity in E; destruct (mk_equity (ld_market l) u) as [j|]; [exists j; reflexivity|discriminate E]).
  unfold has_pricer in H. unfold create_pricer. destruct (in_kind i) as [us uc|is' t r x|  |tag|t fc x fx|uc fx|ty u uc settled q|u|] eqn:K.
  - destruct H as (u & us' & b & -> & BN & B & BA). assert (U : underlyings i = u :: us') by (unfold underlyings; rewrite K; reflexivity). destruct (collateral_head i u us' P I U) as (c & cs & C1 & C2). unfold futures_pricer. rewrite U. cbn [head rbind].
    destruct (EQ u) as [j ->]; [exists i; split; [exact I|rewrite U; left; reflexivity]|]. rewrite C1. cbn [rbind head]. unfold borrowing_names, borrow_tags. rewrite U, K, app_nil_r. destruct (collect_some _ _ (mp_borrowing mp) (u :: us') BN) as [ys Y]. rewrite Y. cbn [rbind].
    destruct ys as [|b' bs]; [cbn [collect] in Y; destruct (found (mp_borrowing mp u)); [|discriminate Y]; destruct (collect (fun u0 => found (mp_borrowing mp u0)) us'); discriminate Y|]. apply collect_head in Y. assert (b' = b) as -> by congruence. cbn [head rbind]. rewrite C2. cbn [rbind].
    unfold curve_named. destruct (proj1 (c196_curves f_exp eval d mp k tenors money shuffle is l L b) BA) as [cb ->]. cbn [rbind]. eexists. reflexivity.
  - destruct H as [B F]. unfold ccy in B. destruct (mp_bond mp (is', t, r, in_ccy i)) as [n|] eqn:BN; [|congruence]. unfold bond_pricer. assert (D : discount_name mp i = ROk n) by (unfold discount_name; rewrite K, BN; reflexivity). rewrite D. cbn [rbind].
    destruct (mapped i (Some n) I (need_issuer mp i is' t r x n K BN)) as (n' & Q & C); [rewrite <- BN; apply P|]. injection Q as <-. rewrite C. cbn [rbind]. assert (R : rate_index i = ROk x) by (unfold rate_index; rewrite K; reflexivity). rewrite R. cbn [rbind]. destruct (indexed_made i x P I R F) as [p ->]. eexists. reflexivity.
  - destruct H.
  - destruct H.
  - destruct H as [T F]. assert (TC : two_ccys i = Some (in_ccy i, fc)) by (unfold two_ccys; rewrite K; destruct t; [congruence|reflexivity..]).
    destruct (mapped i _ I (need_first mp i _ _ TC)) as (n & N & C); [apply P|]. destruct (mapped i _ I (need_second mp i _ _ TC)) as (n' & N' & C'); [apply P|]. unfold swap_pricer.
    assert (E1 : crs_name mp i = ROk n) by (unfold crs_name; rewrite K, N; destruct t; [congruence|reflexivity..]). assert (E2 : float_crs_name mp i = ROk n') by (unfold float_crs_name; rewrite K, N'; destruct t; [congruence|reflexivity..]). assert (R : rate_index i = ROk x) by (unfold rate_index; rewrite K; reflexivity).
    rewrite E1. cbn [rbind]. rewrite C. cbn [rbind]. rewrite E2. cbn [rbind]. rewrite C'. cbn [rbind]. rewrite R. cbn [rbind]. destruct (indexed_made i x P I R F) as [p ->]. cbn [rbind]. destruct fx as [y|]; [|eexists; reflexivity].
    destruct (c196_rates f_exp eval d mp k tenors money shuffle is l L y) as (rr & j & _ & -> & _); [exists i; split; [exact I|unfold fx_codes; rewrite K; left; reflexivity]|]. eexists. reflexivity.
  - assert (TC : two_ccys i = Some (in_ccy i, uc)) by (unfold two_ccys; rewrite K; reflexivity). destruct (mapped i _ I (need_first mp i _ _ TC)) as (n & N & C); [apply P|]. destruct (mapped i _ I (need_second mp i _ _ TC)) as (n' & N' & C'); [apply P|]. unfold fx_futures_pricer.
    destruct (c196_rates f_exp eval d mp k tenors money shuffle is l L fx) as (rr & j & _ & -> & _); [exists i; split; [exact I|unfold fx_codes; rewrite K; left; reflexivity]|]. assert (E1 : crs_name mp i = ROk n) by (unfold crs_name; rewrite K, N; reflexivity). assert (E2 : float_crs_name mp i = ROk n') by (unfold float_crs_name; rewrite K, N'; reflexivity).
    rewrite E2. cbn [rbind]. rewrite C'. cbn [rbind]. rewrite E1. cbn [rbind]. rewrite C. eexists. reflexivity.
  - destruct H as (-> & -> & QF). assert (U : underlyings i = [u]) by (unfold underlyings; rewrite K; reflexivity). destruct (collateral_head i u [] P I U) as (c & cs & C1 & C2). unfold option_pricer. rewrite U. cbn [head rbind]. assert (AU : asked is u) by (exists i; split; [exact I|rewrite U; left; reflexivity]).
    unfold equity_named. destruct (EQ u AU) as [j ->]. cbn [rbind]. destruct (c196_surfaces f_exp eval d mp k tenors money shuffle is l L) as (SU & _). destruct (SU u) as (v & e & -> & _ & NB & EN & _); [exists i; split; [exact I|unfold vol_underlyings; rewrite K; left; reflexivity]|].
    assert (DN : discount_name mp i = found (mp_funding mp (in_ccy i))) by (unfold discount_name; rewrite K; reflexivity). rewrite DN. destruct (mapped i _ I (need_funding mp i ltac:(unfold unsettled; rewrite K; exact Logic.I))) as (n & -> & C); [apply P|]. cbn [found rbind]. rewrite C. cbn [rbind]. rewrite C1. cbn [rbind head]. rewrite C2. cbn [rbind].
    assert (BN : borrowing_names mp i = ROk [vt_borrow v]) by (unfold borrowing_names, borrow_tags; rewrite U, K; cbn [app collect]; rewrite NB; reflexivity). rewrite BN. cbn [rbind head]. unfold curve_named at 1. unfold env_of in EN. destruct (mk_curve (ld_market l) (vt_coll v)); [|discriminate EN]. destruct (mk_curve (ld_market l) (vt_borrow v)); [|discriminate EN]. cbn [rbind].
    assert (UC : und_ccy i = ROk uc) by (unfold und_ccy; rewrite K; reflexivity). rewrite UC. cbn [rbind]. destruct (ccy_cases uc (ccy i)) as [[-> _]|[-> NE]]; cbn [rbind]; [eexists; reflexivity|].
    destruct (c196_quantos f_exp eval d mp k tenors money shuffle is l L) as (QU & _ & _). destruct (QU (u, FxCode uc (ccy i))) as (a & b & _ & _ & ->); [exists i; split; [exact I|unfold quanto_pairs; rewrite K, (QF NE); left; reflexivity]|]. cbn [rbind]. eexists. reflexivity.
  - unfold equity_named. destruct (EQ (code i) H) as [j ->]. cbn [rbind]. eexists. reflexivity.
  - eexists. reflexivity.
Qed.
(** ** and which never do *)
Lemma dummy_curve : ~ asked is dummy -> curve_named l dummy = Ret RErr.
Proof using L. intro ND. unfold curve_named. rewrite (no_dummy ND). reflexivity. Qed.
(** an interest rate swap *)
Theorem c198_irs_refuted : forall i fc x fx, ~ asked is dummy -> in_kind i = KSwap IRS fc x fx -> create_pricer analytic l mp i = Ret RErr.
Proof using L. intros i fc x fx ND K. unfold create_pricer. rewrite K. unfold swap_pricer, crs_name. rewrite K. cbn [rbind]. rewrite (dummy_curve ND). reflexivity. Qed.
(** an option that is settled daily *)
Theorem c198_settled_refuted : forall i ty u uc q w, ~ asked is dummy -> in_kind i = KOption ty u uc true q -> create_pricer analytic l mp i <> Ret (ROk w).
Proof using L.
  intros i ty u uc q w ND K H. unfold create_pricer in H. rewrite K in H. unfold option_pricer in H. rstep H v E. rstep H e E1. destruct (mk_vol (ld_market l) v); [|discriminate H]. unfold discount_name in H. rewrite K in H. cbn [rbind] in H. rewrite (dummy_curve ND) in H. discriminate H.
Qed.
(** a future on government bonds: an error, and with the curve of those bonds a panic *)
Theorem c198_ktbf_refuted : forall i tag, in_kind i = KKtbf tag -> create_pricer analytic l mp i = match mk_curve (ld_market l) "KRWGOV" with Some _ => Panic | None => Ret RErr end.
Proof using. intros i tag K. unfold create_pricer. rewrite K. unfold ktbf_pricer, curve_named, collateral_names, underlyings. rewrite K. destruct (mk_curve (ld_market l) "KRWGOV"); reflexivity. Qed.
(** a bond of an issuer that has no curve of its own *)
Theorem c198_issuer_refuted : forall i issuer t r x, ~ asked is dummy -> in_kind i = KBond issuer t r x -> mp_bond mp (issuer, t, r, ccy i) = None -> create_pricer analytic l mp i = Ret RErr.
Proof using L. intros i issuer t r x ND K B. unfold create_pricer. rewrite K. unfold bond_pricer, discount_name. rewrite K. unfold ccy in B. rewrite B. cbn [rbind]. rewrite (dummy_curve ND). reflexivity. Qed.
(** a stock that has another code than its underlying is looked up by its own *)
Theorem c198_stock_refuted : forall i u, in_kind i = KStock u -> code i <> u ->
  (asked is (code i) -> create_pricer analytic l mp i = Ret (ROk (WStock (code i)))) /\ (~ asked is (code i) -> create_pricer analytic l mp i = Ret RErr).
Proof using L.
  intros i u K _. unfold create_pricer. rewrite K. unfold equity_named. destruct (c196_prices f_exp eval d mp k tenors money shuffle is l L) as (_ & PR & PN & _). split; intro A.
  - destruct (PR _ A) as (v & p & _ & E & _). unfold equity in E. destruct (mk_equity (ld_market l) (code i)); [reflexivity|discriminate E].
  - rewrite (PN _ A). reflexivity.
Qed.
(** a future without underlyings panics *)
Theorem c198_futures_refuted : forall i uc, in_kind i = KFutures [] uc -> create_pricer analytic l mp i = Panic.
Proof using. intros i uc K. unfold create_pricer. rewrite K. unfold futures_pricer, underlyings. rewrite K. reflexivity. Qed.
(** one instrument without a pricer, and there are none for the rest *)
Theorem c198_each : forall ws, initialize_pricers analytic l mp is = Ret (ROk ws) -> map fst ws = map code is /\ forall j i, nth_error is j = Some i -> exists w, create_pricer analytic l mp i = Ret (ROk w) /\ nth_error ws j = Some (code i, w).
Proof using.
  unfold initialize_pricers. generalize is. intros js. induction js as [|i js IH]; cbn [map_res]; intros ws H.
  - injection H as <-. split; [reflexivity|]. intros [|j] i Q; discriminate Q.
  - rstep H p E. rstep E w W. injection E as <-. rstep H ps E. injection H as <-. destruct (IH ps E) as [A B]. split; [cbn [map fst]; congruence|]. intros [|j] i' Q; cbn [nth_error] in *; [injection Q as <-; exists w; auto|exact (B j i' Q)].
Qed.
End Pricers.

(** ** an example: an option and a future on "a", a bond with fixed coupons and cash *)
Definition ex_future : instrument := Inst "future" "F1" Ccy_KRW (gof_Z 10) (ex_day 19900) (KFutures ["a"%string] Ccy_KRW).
Definition ex_cash : instrument := Inst "cash" "" Ccy_KRW (gof_Z 1) (ex_day 19900) KCash.
Definition ex_flat : vector_data := VectorData [gdiv (gof_Z 1) (gof_Z 16)] None [gof_Z 1] None.
Definition ex_data : data := Data (fun _ => None) (fun u => if String.eqb u "a" then Some (gof_Z 100) else None) (fun _ => Some ex_flat) (fun u => if String.eqb u "a" then Some (VectorData [gof_Z 2] (Some [ex_day 19850]) [] None) else None)
  (fun _ => Some (gdiv (gof_Z 1) (gof_Z 4))) (fun _ => None) (fun _ => None) (fun _ => None) (fun _ => None).
Definition ex_match : match_parameter := MatchParameter (fun _ => Some "c"%string) (fun u => Some u) (fun _ => Some "k"%string) (fun _ => None) (fun _ => None) (fun _ => Some "c"%string).
Definition ex_portfolio : list instrument := [ex_opt "O1" 64; ex_future; ex_fixed; ex_cash].
Definition ex_load : outcome (rresult loaded) := with_parameter_data rise (ex_day 19797) ex_data ex_match StickyToMoneyness [list_ascii_of_string "1Y"; list_ascii_of_string "2Y"] [gof_Z 1; gof_Z 2] (fun x => x) ex_portfolio.
Definition is_loaded (r : outcome (rresult loaded)) : bool := match r with Ret (ROk _) => true | _ => false end.
Lemma is_loaded_ok : forall r, is_loaded r = true -> exists l, r = Ret (ROk l).
Proof. intros [[l|]| |] H; try discriminate H. exists l. reflexivity. Qed.
Lemma ex_asked : forall u, asked ex_portfolio u -> u = "a"%string.
Proof. intros u (i & I & U). cbn [ex_portfolio In] in I. repeat destruct I as [<-|I]; cbn in U; try tauto; destruct U as [<-|[]]; reflexivity. Qed.
Example c196_hypotheses_met : exists l, ex_load = Ret (ROk l) /\ asked ex_portfolio "a" /\ vol_asked ex_portfolio "a" /\ ~ asked ex_portfolio dummy /\ proper ex_match /\ forall i, In i ex_portfolio -> has_pricer ex_data ex_match ex_portfolio true i.
Proof.
  destruct (is_loaded_ok ex_load ltac:(vm_compute; reflexivity)) as [l E]. exists l. split; [exact E|]. split; [exists ex_future; split; [right; left; reflexivity|left; reflexivity]|]. split; [exists (ex_opt "O1" 64); split; [left; reflexivity|left; reflexivity]|].
  split; [intro Q; apply ex_asked in Q; discriminate Q|]. split; [repeat split; intros; discriminate|]. intros i I. cbn [ex_portfolio In] in I. destruct I as [<-|[<-|[<-|[<-|[]]]]]; unfold has_pricer; cbn.
  - split; [reflexivity|]. split; [reflexivity|]. intro Q. exfalso. apply Q. reflexivity.
  - exists "a"%string, [], "a"%string. split; [reflexivity|]. split; [intros v _; discriminate|]. split; [reflexivity|]. left. exists ex_future. split; [right; left; reflexivity|left; reflexivity].
  - split; [discriminate|]. intros ix Q. discriminate Q.
  - exact I.
Qed.
(** the same with the borrowing of "a" mapped to "b", for which there are data as well *)
Definition ex_elsewhere : match_parameter := MatchParameter (fun _ => Some "c"%string) (fun _ => Some "b"%string) (fun _ => Some "k"%string) (fun _ => None) (fun _ => None) (fun _ => Some "c"%string).
Example c197_hypotheses_met : vol_asked ex_portfolio "a" /\ mp_borrowing ex_elsewhere "a" = Some "b"%string /\ ~ asked ex_portfolio "b" /\ (forall i, In i ex_portfolio -> ~ needs ex_elsewhere i (Some "b"%string)) /\ (exists c, curve_from rise (ex_day 19797) ex_data "b" c) /\
  with_parameter_data rise (ex_day 19797) ex_data ex_elsewhere StickyToMoneyness [list_ascii_of_string "1Y"; list_ascii_of_string "2Y"] [gof_Z 1; gof_Z 2] (fun x => x) ex_portfolio = Ret RErr.
Proof.
  split; [exists (ex_opt "O1" 64); split; [left; reflexivity|left; reflexivity]|]. split; [reflexivity|]. split; [intro Q; apply ex_asked in Q; discriminate Q|]. split; [|split].
  - intros i I N. cbn [ex_portfolio In] in I. assert (Q : forall o, needs ex_elsewhere i o -> o <> Some "b"%string) by (intros o [c C|U|u U|a b T|a b T|js t r x n K M]; cbn [ex_elsewhere mp_index mp_funding mp_collateral mp_crs mp_bond] in *; try discriminate; congruence). exact (Q _ N eq_refl).
  - assert (K : forall r : outcome (rresult curve), match r with Ret (ROk _) => true | _ => false end = true -> exists c, r = Ret (ROk c)) by (intros [[c|]| |] Q; try discriminate Q; exists c; reflexivity).
    destruct (K (curve_new rise (ex_day 19797) ex_flat) ltac:(vm_compute; reflexivity)) as [c C]. exists c, ex_flat. split; [reflexivity|exact C].
  - assert (K : forall r : outcome (rresult loaded), match r with Ret RErr => true | _ => false end = true -> r = Ret RErr) by (intros [[c|]| |] Q; try discriminate Q; reflexivity). apply K. vm_compute. reflexivity.
Qed.
(** engines that load and then have no pricers: an interest rate swap whose index is
    mapped, an option settled daily, a future on government bonds *)
Definition ex_irs : instrument := Inst "irs" "S1" Ccy_KRW (gof_Z 1) (ex_day 19900) (KSwap IRS Ccy_KRW (Some ("cd", "CD91")%string) None).
Definition ex_settled : instrument := Inst "option" "O2" Ccy_KRW (gof_Z 1) (ex_day 19900) (KOption Call "a" Ccy_KRW true None).
Definition ex_ktbf : instrument := Inst "ktbf" "K1" Ccy_KRW (gof_Z 1) (ex_day 19900) (KKtbf "KRWGOV").
Definition ex_indexed : match_parameter := MatchParameter (fun _ => Some "c"%string) (fun u => Some u) (fun _ => Some "KRWGOV"%string) (fun _ => Some "c"%string) (fun _ => None) (fun _ => Some "c"%string).
Definition then_pricers (is : list instrument) : outcome (rresult (rresult unit)) :=
  match with_parameter_data rise (ex_day 19797) ex_data ex_indexed StickyToMoneyness [list_ascii_of_string "1Y"; list_ascii_of_string "2Y"] [gof_Z 1; gof_Z 2] (fun x => x) is with
  | Ret (ROk l) => match initialize_pricers true l ex_indexed is with Ret (ROk _) => Ret (ROk (ROk tt)) | Ret RErr => Ret (ROk RErr) | Panic => Panic | Diverge => Diverge end
  | _ => Ret RErr
  end.
Example c198_hypotheses_met : then_pricers [ex_fixed] = Ret (ROk (ROk tt)) /\ then_pricers [ex_fixed; ex_irs] = Ret (ROk RErr) /\ then_pricers [ex_settled] = Ret (ROk RErr) /\ then_pricers [ex_ktbf] = Ret (ROk RErr) /\ then_pricers [ex_ktbf; ex_fixed] = Panic.
Proof. repeat split; vm_compute; reflexivity. Qed.

Print Assumptions c198_right.
Print Assumptions c198_made.
Print Assumptions c198_irs_refuted.
Print Assumptions c198_settled_refuted.
Print Assumptions c198_ktbf_refuted.
Print Assumptions c198_issuer_refuted.
Print Assumptions c198_stock_refuted.
Print Assumptions c198_futures_refuted.
Print Assumptions c198_each.
