(** QEngDeltaProps.v -- C183 and C184: exposures, deltas and gammas. *)
From Coq Require Import ZArith Arith Ascii String.
From Coq Require Import List Bool Lia.
From Flocq Require Import Core IEEE754.BinarySingleNaN.
From Verif Require Import Base FloatModel KrxModel QDateModel QYearModel QPeriodModel QFindModel QInterpModel QDivModel QCurveModel QMoneyModel QBondModel QSwapModel QFutModel QInstModel QInstSpec QInstProps QMatchProps QVolModel QEngModel QEngSpec QEngProofs QEngFrame QEngProps.
Import ListNotations.
Open Scope Z_scope.

(** ** C183 *)
Lemma exposures_ok : forall cx m is acc s f s', exposures cx m acc is s = Ret (ROk f, s') -> coded is -> s' = s /\
  (forall i, In i is -> exists p x e, cx_pricer cx (code i) = Some p /\ reported_npv s i x /\ pr_fx p m i x = Ret (ROk e) /\ f (code i) = Some e) /\ (forall k, (forall i, In i is -> code i <> k) -> f k = acc k).
Proof.
  intros cx m is. induction is as [|i is IH]; intros acc s f s' H C; cbn [exposures] in H.
  - apply done_ok in H. destruct H as [<- ->]. split; [reflexivity|]. split; [intros i []|reflexivity].
  - step H p s1 E1. apply need_ok in E1. destruct E1 as [P ->]. step H x s1 E2. apply npv_of_ok in E2. destruct E2 as [X ->]. step H e s1 E3. apply pure_ok in E3. destruct E3 as [E ->].
    assert (C' : coded is) by (intros a b A B; apply C; right; assumption). destruct (IH _ _ _ _ H C') as (-> & I1 & I2). split; [reflexivity|].
    assert (X' : reported_npv s i x) by (destruct X as (c & r & A & B & D); exists c; split; [exact A|exists r; auto]). split.
    + intros j [<-|J]; [|exact (I1 j J)]. destruct (in_dec string_dec (code i) (map code is)) as [M|M].
      * apply in_map_iff in M. destruct M as (j & Q & J). assert (j = i) by (apply C; [right; exact J|left; reflexivity|exact Q]). subst j. exact (I1 i J).
      * exists p, x, e. repeat split; try assumption. rewrite I2; [apply put_same|]. intros j J Q. apply M. rewrite <- Q. apply in_map. exact J.
    + intros k K. rewrite I2; [|intros j J; apply K; right; exact J]. apply put_other. intro. subst k. apply (K i); [left; reflexivity|reflexivity].
Qed.
(** the market does not change, the exposures of an instrument are its pricer's for
    the price reported, and nothing else in the reports changes *)
Theorem c183_exposure : forall cx s s', coded (st_action s) -> runs (set_fx_exposures cx) s s' ->
  st_market s' = st_market s /\ only (fun _ x => x = FxCell) s s' /\
  forall i, In i (st_action s) -> In (code i) (cx_keys cx) -> exists p x e, cx_pricer cx (code i) = Some p /\ reported_npv s i x /\ pr_fx p (st_market s) i x = Ret (ROk e) /\ reported s' i (fun c => ca_fx c = Some e).
Proof.
  intros cx s s' C H. unfold runs, set_fx_exposures in H. step H s0 s1 E0. apply get_ok in E0. destruct E0 as [-> ->]. step H f s1 E1. destruct (exposures_ok _ _ _ _ _ _ _ E1 C) as (-> & F & _).
  assert (A : st_market s' = st_market s /\ only (fun _ x => x = FxCell) s s' /\ forall k, In k (cx_keys cx) -> exists c e, st_results s' k = Some c /\ f k = Some e /\ ca_fx c = Some e).
  { refine (each_run _ _ _ _ _ H (fun pre t => st_market t = st_market s /\ only (fun _ x => x = FxCell) s t /\ forall k, In k pre -> exists c e, st_results t k = Some c /\ f k = Some e /\ ca_fx c = Some e) _ _); [split; [reflexivity|split; [apply only_refl|intros ? []]]|].
    intros pre k post t t' _ (T1 & T2 & T3) ST. step ST e t1 E. apply need_ok in E. destruct E as [E ->]. pose proof ST as ST'. apply edit_ok in ST'. destruct ST' as (c & EC & ->). split; [exact T1|]. split.
    - eapply only_trans; [exact T2|]. apply (only_edit k (set_fx e) _ _ _ ST); [reflexivity|]. intros c0 x N. destruct x; try reflexivity. contradiction N. reflexivity.
    - intros j J. cbn [st_results]. destruct (String.eqb_spec j k) as [->|N]; [exists (set_fx e c), e; rewrite put_same; auto|]. rewrite put_other by exact N. apply in_app_or in J. destruct J as [J|[J|[]]]; [exact (T3 j J)|congruence]. }
  destruct A as (A1 & A2 & A3). split; [exact A1|]. split; [exact A2|]. intros i I K. destruct (F i I) as (p & x & e & P & X & E & FE). exists p, x, e. split; [exact P|]. split; [exact X|]. split; [exact E|]. destruct (A3 _ K) as (c & e' & Q1 & Q2 & Q3). exists c. split; [exact Q1|]. congruence.
Qed.
(** most pricers: all of the value in the instrument's own currency *)
Theorem c183_own : forall cx s s' i p x, coded (st_action s) -> runs (set_fx_exposures cx) s s' -> In i (st_action s) -> In (code i) (cx_keys cx) -> cx_pricer cx (code i) = Some p -> pr_fx p = own_fx -> reported_npv s i x ->
  reported s' i (fun c => ca_fx c = Some [(ccy i, gmul x (notional i))]).
Proof.
  intros cx s s' i p x C H I K P O X. destruct (c183_exposure cx s s' C H) as (_ & _ & R). destruct (R i I K) as (p' & x' & e & P' & X' & E & Q). assert (p' = p) by congruence. subst p'. assert (x' = x) by exact (reported_fun _ _ _ _ X' X). subst x'. rewrite O in E. unfold own_fx in E. injection E as <-. exact Q.
Qed.

(** ** C184 *)
(** stocks and futures: the price itself, under the instrument's own code *)
Definition linear (i : instrument) : Prop := type_name i = "Stock"%string \/ type_name i = "Futures"%string.
Theorem c184_linear : forall cx s s', coded (cx_insts cx) -> runs (preprocess_delta_gamma cx) s s' ->
  st_market s' = st_market s /\ only (fun k x => exists i, In i (cx_insts cx) /\ linear i /\ code i = k /\ (x = GreekCell Delta k \/ x = GreekCell Gamma k)) s s' /\
  forall i, In i (cx_insts cx) -> linear i -> exists x, reported_npv s i x /\ reported_greek s' i Delta (code i) (gmul (gmul x pct) (notional i)) /\ reported_greek s' i Gamma (code i) (gof_Z 0).
Proof.
  intros cx s s' C H. unfold runs, preprocess_delta_gamma in H. set (is := with_types (cx_insts cx) ["Stock"; "Futures"]%string) in H.
  assert (IS : forall i, In i is <-> In i (cx_insts cx) /\ linear i).
  { intro i. unfold is, with_types. rewrite filter_In. unfold has. cbn [existsb]. rewrite orb_false_r, orb_true_iff, !String.eqb_eq. unfold linear. intuition. }
  set (P := fun k x => exists i, In i (cx_insts cx) /\ linear i /\ code i = k /\ (x = GreekCell Delta k \/ x = GreekCell Gamma k)).
  assert (A : st_market s' = st_market s /\ only P s s' /\ forall i, In i is -> exists x, reported_npv s i x /\ reported_greek s' i Delta (code i) (gmul (gmul x pct) (notional i)) /\ reported_greek s' i Gamma (code i) (gof_Z 0)).
  { refine (each_run _ _ _ _ _ H (fun pre t => st_market t = st_market s /\ only P s t /\ forall i, In i pre -> exists x, reported_npv s i x /\ reported_greek t i Delta (code i) (gmul (gmul x pct) (notional i)) /\ reported_greek t i Gamma (code i) (gof_Z 0)) _ _); [split; [reflexivity|split; [apply only_refl|intros ? []]]|].
    intros pre i post t t' L (T1 & T2 & T3) ST. assert (II : In i is) by (rewrite L; apply in_or_app; right; left; reflexivity). pose proof (proj1 (IS i) II) as [I LI].
    step ST x t1 E. apply npv_of_ok in E. destruct E as [(c & r & EC & ER & EX) ->]. step ST u t1 E. destruct u. assert (X : reported_npv t i x) by (exists c; split; [exact EC|exists r; auto]).
    assert (PD : P (code i) (GreekCell Delta (code i))) by (exists i; auto). assert (PG : P (code i) (GreekCell Gamma (code i))) by (exists i; auto).
    assert (O1 : only P t t1) by (apply (only_edit _ _ _ _ P E); [reflexivity|]; intros c0 y N; apply set_greek_else; intros ->; exact (N PD)).
    assert (O2 : only P t1 t') by (apply (only_edit _ _ _ _ P ST); [reflexivity|]; intros c0 y N; apply set_greek_else; intros ->; exact (N PG)).
    pose proof (only_trans _ _ _ _ O1 O2) as O. pose proof (only_trans _ _ _ _ T2 O) as OS. assert (NN : forall k, ~ P k NpvCell) by (intros k (j & _ & _ & _ & [Q|Q]); discriminate Q).
    pose proof E as E'. apply edit_ok in E'. destruct E' as (c1 & EC1 & ->). assert (c1 = c) by congruence. subst c1. pose proof ST as ST'. apply edit_ok in ST'. destruct ST' as (c2 & EC2 & ->). cbn [st_results] in EC2. rewrite put_same in EC2. apply some_inj in EC2. subst c2. cbn [st_market st_results] in *.
    split; [exact T1|]. split; [exact OS|]. intros j J. destruct (string_dec (code j) (code i)) as [Q|Q].
    - assert (j = i). { apply C; [|exact I|exact Q]. apply in_app_or in J. destruct J as [J|[<-|[]]]; [|exact I]. apply (IS j). rewrite L. apply in_or_app. left. exact J. } subst j. exists x. split; [apply (only_npv P s t i x T2 (NN _)); exact X|].
      split; (eexists; split; [cbn [st_results]; apply put_same|]); [|apply set_greek_at]. eapply eq_trans; [exact (set_greek_else Gamma (code i) _ _ (GreekCell Delta (code i)) ltac:(discriminate))|apply set_greek_at].
    - apply in_app_or in J. destruct J as [J|[J|[]]]; [|congruence]. destruct (T3 j J) as (y & Y1 & Y2 & Y3). exists y. split; [exact Y1|].
      destruct Y2 as (d & D1 & D2), Y3 as (d' & D1' & D2'). split; [exists d|exists d']; (split; [cbn [st_results]; rewrite !put_other by congruence; assumption|assumption]). }
  destruct A as (A1 & A2 & A3). split; [exact A1|]. split; [exact A2|]. intros i I L. apply A3. apply IS. auto.
Qed.

(** all others: the price of one underlying up and down, and back *)
Definition bump_delta (up down r n : f32) : f32 := gmul (gmul (gdiv (gsub up down) (gmul (gof_Z 2) r)) pct) n.
Definition bump_gamma (up mid down r n : f32) : f32 := gmul (gmul (gmul (gsub (gadd (gsub up mid) down) mid) (gdiv pct r)) (gmul half (gdiv pct r))) n.
Definition curved (i : instrument) (u : string) : Prop := In u (underlyings i) /\ ~ linear i.
Lemma curved_sel : forall is u i, In i (with_underlying is u ["Stock"; "Futures"]%string) <-> In i is /\ curved i u.
Proof.
  intros is u i. unfold with_underlying. rewrite filter_In, andb_true_iff, negb_true_iff, (has_in _ _ string_decides), (has_not _ _ string_decides). unfold curved, linear. cbn [In]. split; intros (A & B & D); (split; [exact A|]); (split; [exact B|]); intro Q; apply D; intuition congruence.
Qed.
(** what is known of one instrument and one underlying, from the market and the
    reports before *)
Definition delta_from (cx : context) (m : market) (s : state) (r : f32) (u : string) (i : instrument) (t : state) : Prop :=
  exists p up down mid, equity m u = Some p /\ priced cx (with_price m u (gmul (mp_value p) (gadd (gof_Z 1) r))) i up /\ priced cx (with_price m u (gmul (mp_value p) (gsub (gof_Z 1) r))) i down /\
    reported_npv s i mid /\ reported_greek t i Delta u (bump_delta up down r (notional i)) /\ reported_greek t i Gamma u (bump_gamma up mid down r (notional i)).
Definition two_cells (k u : string) (k' : string) (x : cell) : Prop := k' = k /\ (x = GreekCell Delta u \/ x = GreekCell Gamma u).
Lemma store_delta_ok : forall u r ups downs i t t', store_delta u r ups downs i t = Ret (ROk tt, t') ->
  st_market t' = st_market t /\ st_action t' = st_action t /\ only (two_cells (code i) u) t t' /\
  exists up down mid, ups (code i) = Some up /\ downs (code i) = Some down /\ reported_npv t i mid /\ reported_greek t' i Delta u (bump_delta up down r (notional i)) /\ reported_greek t' i Gamma u (bump_gamma up mid down r (notional i)).
Proof.
  intros u r ups downs i t t' H. unfold store_delta in H. step H up t1 E. apply need_ok in E. destruct E as [EU ->]. step H down t1 E. apply need_ok in E. destruct E as [ED ->]. step H x t1 E. destruct x. step H mid t2 EM. apply npv_of_ok in EM. destruct EM as [(c & rr & EC & ER & EX) ->].
  assert (O1 : only (two_cells (code i) u) t t1) by (apply (only_edit _ _ _ _ _ E); [reflexivity|]; intros c0 y N; apply set_greek_else; intros ->; apply N; split; [reflexivity|left; reflexivity]).
  assert (O2 : only (two_cells (code i) u) t1 t') by (apply (only_edit _ _ _ _ _ H); [reflexivity|]; intros c0 y N; apply set_greek_else; intros ->; apply N; split; [reflexivity|right; reflexivity]).
  assert (NN : ~ two_cells (code i) u (code i) NpvCell) by (intros [_ [Q|Q]]; discriminate Q).
  assert (M1 : reported_npv t i mid) by (apply (only_npv _ t t1 i mid O1 NN); exists c; split; [exact EC|exists rr; auto]).
  apply edit_ok in E. destruct E as (c1 & EC1 & ->). cbn [st_results] in EC. rewrite put_same in EC. apply some_inj in EC. subst c.
  apply edit_ok in H. destruct H as (c2 & EC2 & ->). cbn [st_results] in EC2. rewrite put_same in EC2. apply some_inj in EC2. subst c2. cbn [st_market st_action st_results] in *.
  split; [reflexivity|]. split; [reflexivity|]. split; [exact (only_trans _ _ _ _ O1 O2)|]. exists up, down, mid. split; [exact EU|]. split; [exact ED|]. split; [exact M1|].
  split; (eexists; split; [cbn [st_results]; apply put_same|]); [|apply set_greek_at]. eapply eq_trans; [exact (set_greek_else Gamma u _ _ (GreekCell Delta u) ltac:(discriminate))|apply set_greek_at].
Qed.
Definition delta_cells (cx : context) (k : string) (x : cell) : Prop := exists i u, In i (cx_insts cx) /\ curved i u /\ code i = k /\ (x = GreekCell Delta u \/ x = GreekCell Gamma u).
Lemma delta_of_ok : forall cx r u s s', coded (cx_insts cx) -> delta_of cx r u s = Ret (ROk tt, s') ->
  st_market s' = st_market s /\ only (fun k x => delta_cells cx k x /\ (x = GreekCell Delta u \/ x = GreekCell Gamma u)) s s' /\ forall i, In i (cx_insts cx) -> curved i u -> delta_from cx (st_market s) s r u i s'.
Proof.
  intros cx r u s s' C H. unfold delta_of in H. set (is := with_underlying (cx_insts cx) u ["Stock"; "Futures"]%string) in *. step H x s1 E. destruct x. apply set_action_ok in E.
  assert (IS : forall i, In i is <-> In i (cx_insts cx) /\ curved i u) by (intro i; apply curved_sel). assert (CI : coded is) by (apply (coded_sub (cx_insts cx)); [exact C|]; intros i I; apply IS; exact I).
  destruct is as [|i0 is0] eqn:ISE. { apply done_ok in H. destruct H as [_ ->]. subst s1. cbn [st_market]. split; [reflexivity|]. split; [apply only_results; reflexivity|]. intros i I CU. destruct (proj2 (IS i) (conj I CU)). }
  rewrite <- ISE in *. clear i0 is0 ISE. step H s0 s2 E0. apply get_ok in E0. destruct E0 as [-> ->]. step H p s2 EP. apply need_ok in EP. destruct EP as [EP ->]. step H x s2 E2. destruct x. apply set_market_ok in E2. step H ups s3 E3. step H s3' s3'' E4. apply get_ok in E4. destruct E4 as [-> ->].
  assert (A1 : st_action s1 = is) by (subst s1; reflexivity). assert (M1 : st_market s1 = st_market s) by (subst s1; reflexivity). assert (R1 : st_results s1 = st_results s) by (subst s1; reflexivity). rewrite M1 in *.
  set (mu := with_price (st_market s) u (gmul (mp_value p) (gadd (gof_Z 1) r))) in *.
  assert (A2 : st_action s2 = is) by (subst s2; exact A1). assert (M2 : st_market s2 = mu) by (subst s2; reflexivity). assert (R2 : st_results s2 = st_results s) by (subst s2; exact R1).
  destruct (get_npvs_ok cx s2 ups s3 E3) as [-> UP]; [rewrite A2; exact CI|]. rewrite A2, M2 in UP.
  step H x s4 E4. destruct x. apply set_market_ok in E4. rewrite M2 in E4. unfold mu in E4. rewrite with_price_again in E4. set (md := with_price (st_market s) u (gmul (mp_value p) (gsub (gof_Z 1) r))) in *.
  assert (A4 : st_action s4 = is) by (subst s4; exact A2). assert (M4 : st_market s4 = md) by (subst s4; reflexivity). assert (R4 : st_results s4 = st_results s) by (subst s4; exact R2).
  step H downs s5 E5. destruct (get_npvs_ok cx s4 downs s5 E5) as [-> DN]; [rewrite A4; exact CI|]. rewrite A4, M4 in DN. step H x s6 E6. destruct x. step H s7 s8 E7. apply get_ok in E7. destruct E7 as [-> ->]. apply set_market_ok in H.
  set (P := fun k x => delta_cells cx k x /\ (x = GreekCell Delta u \/ x = GreekCell Gamma u)). assert (NN : forall k, ~ P k NpvCell) by (intros k (_ & [Q|Q]); discriminate Q).
  assert (SUB : forall i, In i (cx_insts cx) -> curved i u -> forall k x, two_cells (code i) u k x -> P k x) by (intros i I CU k x [-> Q]; split; [exists i, u; auto|exact Q]).
  assert (O0 : only P s s4) by (apply only_results; exact R4).
  assert (A : st_market s6 = md /\ only P s s6 /\ forall i, In i is -> exists up down mid, ups (code i) = Some up /\ downs (code i) = Some down /\ reported_npv s i mid /\ reported_greek s6 i Delta u (bump_delta up down r (notional i)) /\ reported_greek s6 i Gamma u (bump_gamma up mid down r (notional i))).
  { refine (each_run _ _ _ _ _ E6 (fun pre t => st_market t = md /\ only P s t /\ forall i, In i pre -> exists up down mid, ups (code i) = Some up /\ downs (code i) = Some down /\ reported_npv s i mid /\ reported_greek t i Delta u (bump_delta up down r (notional i)) /\ reported_greek t i Gamma u (bump_gamma up mid down r (notional i))) _ _); [split; [exact M4|split; [exact O0|intros ? []]]|].
    intros pre i post t t' L (T1 & T2 & T3) ST. assert (II : In i is) by (rewrite L; apply in_or_app; right; left; reflexivity). pose proof (proj1 (IS i) II) as [I CU]. destruct (store_delta_ok _ _ _ _ _ _ _ ST) as (B1 & _ & B2 & up & down & mid & B3 & B4 & B5 & B6 & B7).
    split; [congruence|]. split; [exact (only_trans _ _ _ _ T2 (only_weaken _ _ _ _ (SUB i I CU) B2))|]. intros j J. destruct (string_dec (code j) (code i)) as [Q|Q].
    - assert (j = i). { apply C; [|exact I|exact Q]. apply in_app_or in J. destruct J as [J|[<-|[]]]; [|exact I]. apply (IS j). rewrite L. apply in_or_app. left. exact J. } subst j. exists up, down, mid. split; [exact B3|]. split; [exact B4|]. split; [apply (only_npv P s t i mid T2 (NN _)); exact B5|]. auto.
    - apply in_app_or in J. destruct J as [J|[J|[]]]; [|congruence]. destruct (T3 j J) as (a & b & c & Y1 & Y2 & Y3 & Y4 & Y5). exists a, b, c. split; [exact Y1|]. split; [exact Y2|]. split; [exact Y3|].
      split; (eapply only_greek; [exact B2|intros [Z _]; contradiction|assumption]). }
  destruct A as (Z1 & Z2 & Z3). rewrite Z1 in H. unfold md in H. rewrite with_price_again, (with_price_back _ _ _ EP) in H. subst s'. cbn [st_market]. split; [reflexivity|]. split; [exact Z2|].
  intros i I CU. assert (II : In i is) by (apply IS; auto). destruct (Z3 i II) as (up & down & mid & Y1 & Y2 & Y3 & Y4 & Y5). destruct (UP i II) as (up' & P1 & P2), (DN i II) as (down' & Q1 & Q2). assert (up' = up) by congruence. assert (down' = down) by congruence. subst up' down'.
  exists p, up, down, mid. split; [exact EP|]. split; [exact P1|]. split; [exact Q1|]. split; [exact Y3|]. auto.
Qed.
Lemma all_underlyings_firsts : forall is, NoDup (all_underlyings is) /\ forall u, In u (all_underlyings is) <-> exists i, In i is /\ In u (underlyings i).
Proof. intro is. pose proof (c169_underlyings is) as F. split; [exact (firsts_nodup _ _ _ F)|]. intro u. rewrite (firsts_in _ _ _ F u). apply in_flat_map. Qed.
(** C184: each instrument's delta and gamma in each of its underlyings are made of
    its prices with that underlying alone moved up and down by the ratio; the market
    is left exactly as it was and nothing else in the reports changes *)
Theorem c184_delta : forall cx s s', coded (cx_insts cx) -> runs (set_delta_gamma cx) s s' ->
  st_market s' = st_market s /\ only (delta_cells cx) s s' /\
  forall i u, In i (cx_insts cx) -> In u (underlyings i) -> ~ linear i ->
    exists p up down mid mu md, equity (st_market s) u = Some p /\
      price_set (st_market s) u (gmul (mp_value p) (gadd (gof_Z 1) (cf_delta_ratio (cx_config cx)))) mu /\ price_set (st_market s) u (gmul (mp_value p) (gsub (gof_Z 1) (cf_delta_ratio (cx_config cx)))) md /\
      priced cx mu i up /\ priced cx md i down /\ reported_npv s i mid /\
      reported_greek s' i Delta u (bump_delta up down (cf_delta_ratio (cx_config cx)) (notional i)) /\ reported_greek s' i Gamma u (bump_gamma up mid down (cf_delta_ratio (cx_config cx)) (notional i)).
Proof.
  intros cx s s' C H. unfold runs, set_delta_gamma in H. set (r := cf_delta_ratio (cx_config cx)) in *. step H x s1 E. destruct x. apply set_action_ok in E. set (m := st_market s) in *.
  destruct (all_underlyings_firsts (cx_insts cx)) as [ND AU].
  assert (NN : forall k, ~ delta_cells cx k NpvCell) by (intros k (j & v & _ & _ & _ & [Q|Q]); discriminate Q).
  assert (A : st_market s' = m /\ only (delta_cells cx) s s' /\ forall u, In u (all_underlyings (cx_insts cx)) -> forall i, In i (cx_insts cx) -> curved i u -> delta_from cx m s r u i s').
  { refine (each_run _ _ _ _ _ H (fun pre t => st_market t = m /\ only (delta_cells cx) s t /\ forall u, In u pre -> forall i, In i (cx_insts cx) -> curved i u -> delta_from cx m s r u i t) _ _); [subst s1; split; [reflexivity|split; [apply only_results; reflexivity|intros ? []]]|].
    intros pre u post t t' L (T1 & T2 & T3) ST. destruct (delta_of_ok _ _ _ _ _ C ST) as (B1 & B2 & B3). split; [congruence|]. split; [eapply only_trans; [exact T2|]; revert B2; apply only_weaken; intros k x Q; apply Q|].
    intros v V i I CU. apply in_app_or in V. destruct V as [V|[<-|[]]].
    - assert (NE : v <> u). { intros ->. rewrite L in ND. apply NoDup_remove_2 in ND. apply ND. apply in_or_app. left. exact V. } destruct (T3 v V i I CU) as (p & up & down & mid & Y1 & Y2 & Y3 & Y4 & Y5 & Y6). exists p, up, down, mid. repeat (split; [assumption|]).
      split; (eapply only_greek; [exact B2|intros [_ [Q|Q]]; injection Q; congruence|assumption]).
    - destruct (B3 i I CU) as (p & up & down & mid & Y1 & Y2 & Y3 & Y4 & Y5 & Y6). rewrite T1 in *. exists p, up, down, mid. repeat (split; [assumption|]). split; [apply (only_npv _ s t i mid T2 (NN _)); exact Y4|]. auto. }
  destruct A as (A1 & A2 & A3). split; [exact A1|]. split; [exact A2|]. intros i u I U NL. destruct (A3 u) with (i := i) as (p & up & down & mid & Y1 & Y2 & Y3 & Y4 & Y5 & Y6); [apply AU; exists i; auto|exact I|split; assumption|].
  exists p, up, down, mid. eexists. eexists. split; [exact Y1|]. split; [exact (with_price_set _ _ _ _ Y1)|]. split; [exact (with_price_set _ _ _ _ Y1)|]. auto.
Qed.

(** ** In a whole calculation *)
Definition after_delta (cx : context) : act unit :=
  let c := cx_config cx in
  let* _ := whenever (cf_theta c) (set_thetas cx) in
  let* _ := whenever (cf_vega c) (set_vega cx) in
  let* _ := whenever (cf_rho c) (set_rho cx) in
  let* _ := whenever (cf_div c) (set_div_delta cx) in
  let* _ := whenever (cf_vega_structure c) (set_vega_structure cx) in
  let* _ := whenever (cf_rho_structure c) (set_rho_structure cx) in
  let* _ := whenever (cf_div_structure c) (set_div_structure cx) in
  whenever (cf_vega_matrix c) (set_vega_matrix cx).
Lemma keeps_after_delta : forall cx, keeps (fun x => ~ delta_cell x) (after_delta cx).
Proof.
  intro cx. unfold after_delta. repeat (apply keeps_andthen; [apply keeps_whenever|intros _]); [| | | | | | |apply keeps_whenever].
  - apply (keeps_more _ (eq ThetaCell)); [intros x <- Q; exact Q|apply keeps_thetas].
  - apply (keeps_more _ (greek_cell Vega)); [intros x H; destruct x as [| | |g k| | | |]; try contradiction H; cbn in H; subst; intro Q; exact Q|apply keeps_vega].
  - apply (keeps_more _ (greek_cell Rho)); [intros x H; destruct x as [| | |g k| | | |]; try contradiction H; cbn in H; subst; intro Q; exact Q|apply keeps_rho].
  - apply (keeps_more _ (greek_cell DivDelta)); [intros x H; destruct x as [| | |g k| | | |]; try contradiction H; cbn in H; subst; intro Q; exact Q|apply keeps_div].
  - apply (keeps_more _ (ladder_cell VegaLadder)); [intros x H; destruct x; try contradiction H; intro Q; exact Q|apply keeps_vega_structure].
  - apply (keeps_more _ (ladder_cell RhoLadder)); [intros x H; destruct x; try contradiction H; intro Q; exact Q|apply keeps_rho_structure].
  - apply (keeps_more _ (ladder_cell DivLadder)); [intros x H; destruct x; try contradiction H; intro Q; exact Q|apply keeps_div_structure].
  - apply (keeps_more _ matrix_cell); [intros x H; destruct x; try contradiction H; intro Q; exact Q|apply keeps_matrix].
Qed.
(** the deltas and gammas reported at the end of a successful calculation are those
    of the market the engine was made with *)
Theorem c184_calculated : forall cx m s s', with_instruments m (cx_insts cx) = ROk s -> NoDup (map code (cx_insts cx)) -> (forall k, In k (cx_keys cx) <-> In k (map code (cx_insts cx))) -> cf_npv (cx_config cx) = true -> cf_delta (cx_config cx) = true ->
  runs (calculate cx) s s' ->
  forall i, In i (cx_insts cx) -> exists res, priced_result cx m i res /\
    (linear i -> reported_greek s' i Delta (code i) (gmul (gmul (nr_npv res) pct) (notional i)) /\ reported_greek s' i Gamma (code i) (gof_Z 0)) /\
    (~ linear i -> forall u, In u (underlyings i) ->
      exists p up down mu md, equity m u = Some p /\
        price_set m u (gmul (mp_value p) (gadd (gof_Z 1) (cf_delta_ratio (cx_config cx)))) mu /\ price_set m u (gmul (mp_value p) (gsub (gof_Z 1) (cf_delta_ratio (cx_config cx)))) md /\
        priced cx mu i up /\ priced cx md i down /\
        reported_greek s' i Delta u (bump_delta up down (cf_delta_ratio (cx_config cx)) (notional i)) /\ reported_greek s' i Gamma u (bump_gamma up (nr_npv res) down (cf_delta_ratio (cx_config cx)) (notional i))).
Proof.
  intros cx m s s' W ND K N DL H i I. apply coded_nodup in ND. destruct (with_instruments_ok _ _ _ W) as (_ & M & A & _ & R & _). unfold runs in H. rewrite calculate_split in H. rewrite N in H. cbn [whenever] in H. step H u0 s1 E1. destruct u0.
  destruct (npv_stage cx m s s1) as (M1 & A1 & O1 & V1).
  { rewrite A. exact ND. } { exact M. } { intro k. rewrite A, (K k), in_map_iff. split; intros (x & X & Y); exists x; auto. } { exact E1. }
  rewrite A in *. destruct (V1 i I) as (res & PR & (c & E & NR & _)). exists res. split; [exact PR|]. assert (RN : reported_npv s1 i (nr_npv res)) by (exists c; split; [exact E|exists res; auto]).
  unfold after_prices in H. rewrite DL in H. cbn [whenever] in H. step H u0 s2 E2. destruct u0.
  assert (B2 : st_market s2 = m /\ only (fun _ x => x = FxCell) s1 s2). { destruct (cf_fx (cx_config cx)); cbn [whenever] in E2; [|apply done_ok in E2; destruct E2 as [_ ->]; split; [exact M1|apply only_refl]]. destruct (c183_exposure cx s1 s2) as (X1 & X2 & _); [rewrite A1; exact ND|exact E2|]. split; [congruence|exact X2]. }
  destruct B2 as [M2 O2]. step H u0 s4 E4. destruct u0. change (after_delta cx s4 = Ret (ROk tt, s')) in H. step E4 u0 s3 E3. destruct u0. pose proof (keeps_after_delta cx s4 _ s' H) as O5.
  destruct (c184_linear cx s2 s3 ND E3) as (M3 & O3 & L3). destruct (c184_delta cx s3 s4 ND E4) as (M4 & O4 & D4). rewrite M3, M2 in *.
  assert (RN2 : reported_npv s2 i (nr_npv res)) by (apply (only_npv _ s1 s2 i _ O2 ltac:(discriminate)); exact RN).
  assert (RN3 : reported_npv s3 i (nr_npv res)). { apply (only_npv _ s2 s3 i _ O3); [|exact RN2]. intros (j & _ & _ & _ & [Q|Q]); discriminate Q. }
  assert (FIN : forall g k v, g = Delta \/ g = Gamma -> reported_greek s4 i g k v -> reported_greek s' i g k v). { intros g k v G Q. apply (only_greek _ s4 s' i g k v O5); [|exact Q]. intro X. apply X. destruct G as [->| ->]; exact Logic.I. }
  split.
  - intro LI. destruct (L3 i I LI) as (x & X1 & X2 & X3). assert (x = nr_npv res) by exact (reported_fun _ _ _ _ X1 RN2). subst x.
    assert (NP : forall g, ~ delta_cells cx (code i) (GreekCell g (code i))). { intros g (j & v & J & [_ NL] & Q & _). assert (j = i) by (apply ND; assumption). subst j. contradiction. }
    split; apply FIN; auto; eapply only_greek; try exact O4; auto.
  - intros NL u U. destruct (D4 i u I U NL) as (p & up & down & mid & mu & md & Y1 & Y2 & Y3 & Y4 & Y5 & Y6 & Y7 & Y8). assert (mid = nr_npv res) by exact (reported_fun _ _ _ _ Y6 RN3). subst mid. exists p, up, down, mu, md. repeat (split; [assumption|]). split; apply FIN; auto.
Qed.
(** the square of a price of 100 moved by a quarter: 10 options have a delta of
    2000 and a gamma of 10; a price of 7 has none *)
Definition around (x : f32) (n : Z) : bool := glt (gof_Z (n - 1)) x && glt x (gof_Z (n + 1)).
Example c184_hypotheses_met : exists s s', with_instruments ex_mkt [ex_opt "O1" 10; ex_fixed] = ROk s /\ NoDup (map code [ex_opt "O1" 10; ex_fixed]) /\ runs (calculate (ex_cx [ex_opt "O1" 10; ex_fixed] ["B1"; "O1"]%string true)) s s' /\
  ~ linear (ex_opt "O1" 10) /\
  match st_results s' "O1" with Some c => match ca_greek c Delta "a", ca_greek c Gamma "a", ca_fx c with Some d, Some g, Some [(Ccy_KRW, x)] => around d 2000 && around g 10 && geq x (gof_Z 100000) = true | _, _, _ => False end | None => False end.
Proof.
  eexists. destruct (ends_well_ok (calculate (ex_cx [ex_opt "O1" 10; ex_fixed] ["B1"; "O1"]%string true) (match with_instruments ex_mkt [ex_opt "O1" 10; ex_fixed] with ROk s => s | RErr => State ex_mkt (fun _ => None) [] end))
    (fun s => match st_results s "O1" with Some c => match ca_greek c Delta "a", ca_greek c Gamma "a", ca_fx c with Some d, Some g, Some [(Ccy_KRW, x)] => around d 2000 && around g 10 && geq x (gof_Z 100000) | _, _, _ => false end | None => false end)) as (s' & R & T); [vm_compute; reflexivity|].
  exists s'. split; [reflexivity|]. split; [repeat constructor; cbn; intuition discriminate|]. split; [exact R|]. split; [intros [Q|Q]; discriminate Q|].
  destruct (st_results s' "O1") as [c|]; [|discriminate T]. destruct (ca_greek c Delta "a") as [d|]; [|discriminate T]. destruct (ca_greek c Gamma "a") as [g|]; [|discriminate T]. destruct (ca_fx c) as [[|[[] x] [|? ?]]|]; try discriminate T. exact T.
Qed.
(** if a price fails on the way the market stays bumped *)
Theorem c184_failure_refuted : ~ forall cx s s', coded (cx_insts cx) -> set_delta_gamma cx s = Ret (RErr, s') -> st_market s' = st_market s.
Proof.
  intro H. set (cx := Context [ex_opt "O1" 10] (fun _ => Some (Pricer (fun m _ => match equity m "a" with Some p => Ret (if glt (gof_Z 100) (mp_value p) then RErr else ROk (mp_value p)) | None => Ret RErr end) (fun _ _ => Ret RErr) own_fx)) (MatchParameter (fun _ => None) (fun _ => None) (fun _ => None) (fun _ => None) (fun _ => None) (fun _ => None)) (ex_config true) [] [] (fun l => l) (fun l => l) (fun x => x)).
  set (s := State ex_mkt (fun _ => None) []).
  assert (T : match set_delta_gamma cx s with Ret (RErr, s') => match equity (st_market s') "a" with Some p => geq (mp_value p) (gof_Z 125) | None => false end | _ => false end = true) by (vm_compute; reflexivity).
  assert (G : forall o : outcome (rresult unit * state), (forall s', o = Ret (RErr, s') -> st_market s' = ex_mkt) -> match o with Ret (RErr, s') => match equity (st_market s') "a" with Some p => geq (mp_value p) (gof_Z 125) | None => false end | _ => false end = true -> False).
  { intros [[[u|] s']| |] Q B; try discriminate B. rewrite (Q s' eq_refl) in B. vm_compute in B. discriminate B. }
  apply (G _ (fun s' E => H cx s s' ltac:(intros i j [<-|[]] [<-|[]] _; reflexivity) E) T).
Qed.

Print Assumptions c183_exposure.
Print Assumptions c183_own.
Print Assumptions c184_linear.
Print Assumptions c184_delta.
Print Assumptions c184_calculated.
Print Assumptions c184_failure_refuted.
