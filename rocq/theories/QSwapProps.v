(** QSwapProps.v -- C156 to C158: swaps and their cash flows. *)
From Coq Require Import ZArith List Permutation Reals Lra Lia Bool Ascii.
From Flocq Require Import Core IEEE754.BinarySingleNaN.
From Verif Require Import Base CivilSpec FloatModel FloatFacts KrxModel QDateModel QCalModel QPeriodModel QYearModel QSchedModel QSchedProps QInterpModel QInterpSpec QDivModel
  QCurveModel QCurveSpec QCurveFacts QFloatErr QLinProps QCurveProps QCurveFwdProps QBondModel QBondSpec QBondProofs QBondPriceProps QBondProps QCouponProps QMoneyModel QMoneyProps QSwapModel QSwapSpec.
Import ListNotations.
Open Scope Z_scope.

(** ** C156: the kind of a swap *)
Lemma ccy_cases : forall a b, (ccy_eqb a b = true /\ a = b) \/ (ccy_eqb a b = false /\ a <> b).
Proof. intros a b. pose proof (c153_equal a b) as H. destruct (ccy_eqb a b); [left; split; [reflexivity|apply H; reflexivity]|right; split; [reflexivity|]]. intro Q. apply H in Q. discriminate Q. Qed.
Lemma empty_cases : forall {A} (l : list A), (empty l = true /\ l = []) \/ (empty l = false /\ l <> []).
Proof. intros A []; [left|right]; split; try reflexivity. discriminate. Qed.
Lemma some_iff : forall {A} (o : option A), some o = true <-> o <> None.
Proof. intros A []; cbn; split; intro H; congruence. Qed.
Lemma none_iff : forall {A} (o : option A), none o = true <-> o = None.
Proof. intros A []; cbn; split; intro H; congruence. Qed.
Lemma empty_iff : forall {A} (l : list A), empty l = true <-> l = [].
Proof. intros A []; cbn; split; intro H; congruence. Qed.
Lemma differ_iff : forall a b, negb (ccy_eqb a b) = true <-> a <> b.
Proof. intros a b. destruct (ccy_cases a b) as [[-> Q]|[-> Q]]; cbn; split; intro H; congruence. Qed.
Lemma classify_fits : forall r1 r2 rate index issue maturity fc fl i1 i2 l1 l2 k, in_range (od_day issue + 2) = true ->
  (classify (ccy_eqb fc fl) r1 r2 rate index issue maturity fc fl i1 i2 l1 l2 = Ret (ROk k) <-> fits k r1 r2 rate index issue maturity fc fl i1 i2 l1 l2) /\
  (classify (ccy_eqb fc fl) r1 r2 rate index issue maturity fc fl i1 i2 l1 l2 <> Ret RErr -> exists k, classify (ccy_eqb fc fl) r1 r2 rate index issue maturity fc fl i1 i2 l1 l2 = Ret (ROk k)).
Proof.
  intros r1 r2 rate index issue maturity fc fl i1 i2 l1 l2 k R. unfold classify, date_add. rewrite R. cbn [obind].
  match goal with |- context [if ?b then Ret (ROk IRS) else _] => set (b1 := b) end. match goal with |- context [if ?b then Ret (ROk CRS) else _] => set (b2 := b) end.
  match goal with |- context [if ?b then Ret (ROk FxSwap) else _] => set (b3 := b) end. match goal with |- context [if ?b then Ret (ROk (if od_day maturity <=? od_day issue + 2 then FxSpot else FxForward)) else _] => set (b4 := b) end.
  assert (B1 : b1 = true <-> i1 = None /\ i2 = None /\ l1 = None /\ l2 = None /\ index <> None /\ rate <> None /\ fc = fl) by (unfold b1; rewrite !andb_true_iff, !none_iff, !some_iff, c153_equal; tauto).
  assert (B2 : b2 = true <-> i1 <> None /\ i2 <> None /\ l1 <> None /\ l2 <> None /\ index <> None /\ rate <> None /\ fc <> fl) by (unfold b2; rewrite !andb_true_iff, !some_iff, differ_iff; tauto).
  assert (B3 : b3 = true <-> i1 <> None /\ i2 <> None /\ l1 <> None /\ l2 <> None /\ r1 = [] /\ r2 = [] /\ index = None /\ rate = None /\ fc <> fl) by (unfold b3; rewrite !andb_true_iff, !some_iff, !none_iff, !empty_iff, differ_iff; tauto).
  assert (B4 : b4 = true <-> i1 = None /\ i2 = None /\ l1 <> None /\ l2 <> None /\ r1 = [] /\ r2 = [] /\ index = None /\ rate = None /\ fc <> fl) by (unfold b4; rewrite !andb_true_iff, !some_iff, !none_iff, !empty_iff, differ_iff; tauto).
  clearbody b1 b2 b3 b4.
  destruct b1; [clear B2 B3 B4; pose proof (proj1 B1 eq_refl) as H; clear B1|destruct b2; [clear B1 B3 B4; pose proof (proj1 B2 eq_refl) as H; clear B2|destruct b3; [clear B1 B2 B4; pose proof (proj1 B3 eq_refl) as H; clear B3|destruct b4; [clear B1 B2 B3; pose proof (proj1 B4 eq_refl) as H; clear B4|]]]].
  - split; [|intros _; eexists; reflexivity]. destruct k; unfold fits; cbn zeta; split; intro Q; try discriminate Q; try reflexivity; try tauto.
  - split; [|intros _; eexists; reflexivity]. destruct k; unfold fits; cbn zeta; split; intro Q; try discriminate Q; try reflexivity; try tauto.
  - split; [|intros _; eexists; reflexivity]. destruct k; unfold fits; cbn zeta; split; intro Q; try discriminate Q; try reflexivity; try tauto.
  - split; [|intros _; eexists; reflexivity]. destruct (Z.leb_spec (od_day maturity) (od_day issue + 2)) as [L|L]; destruct k; unfold fits; cbn zeta; split; intro Q; try discriminate Q; try reflexivity; try tauto; exfalso; decompose [and] Q; lia.
  - split; [|intro Q; exfalso; apply Q; reflexivity]. split; [intro Q; discriminate Q|]. intro Q. exfalso. assert (X : false = true); [|discriminate X]. destruct k; unfold fits in Q; cbn zeta in Q; [apply B1|apply B2|apply B3|apply B4|apply B4]; tauto.
Qed.
Theorem c156_new : forall r1 r2 rate index comp a notional issue effective maturity fc fl i1 i2 l1 l2 d1 d2 v1 v2 f1 f2 fg pg, in_range (od_day issue + 2) = true ->
  let r := swap_new r1 r2 rate index comp a notional issue effective maturity fc fl i1 i2 l1 l2 d1 d2 v1 v2 f1 f2 fg pg in
  (forall k, fits k r1 r2 rate index issue maturity fc fl i1 i2 l1 l2 -> exists s, r = Ret (ROk s) /\ sw_kind s = k /\ has_terms s r1 r2 rate index comp a notional issue effective maturity fc fl i1 i2 l1 l2 d1 d2 v1 v2 f1 f2 fg pg) /\
  ((forall k, ~ fits k r1 r2 rate index issue maturity fc fl i1 i2 l1 l2) -> r = Ret RErr).
Proof.
  intros until pg. intros R r. subst r. unfold swap_new. split.
  - intros k F. apply (proj1 (classify_fits _ _ _ _ _ _ _ _ _ _ _ _ k R)) in F. rewrite F. cbn [rbind]. eexists. split; [reflexivity|]. split; [reflexivity|]. unfold has_terms. cbn. repeat (split; [reflexivity|]).
    unfold swap_pair. destruct (ccy_cases fc fl) as [[-> Q]|[-> Q]]; split; intro X; congruence.
  - intro N. destruct (classify_fits r1 r2 rate index issue maturity fc fl i1 i2 l1 l2 IRS R) as [_ C].
    destruct (classify (ccy_eqb fc fl) r1 r2 rate index issue maturity fc fl i1 i2 l1 l2) as [[k|]| |] eqn:E; cbn [rbind].
    + exfalso. apply (N k). apply (proj1 (classify_fits _ _ _ _ _ _ _ _ _ _ _ _ k R)). exact E.
    + reflexivity.
    + destruct (C ltac:(discriminate)) as (k & Q). discriminate Q.
    + destruct (C ltac:(discriminate)) as (k & Q). discriminate Q.
Qed.
(** one kind only *)
Theorem c156_one_kind : forall k k' r1 r2 rate index issue maturity fc fl i1 i2 l1 l2, fits k r1 r2 rate index issue maturity fc fl i1 i2 l1 l2 -> fits k' r1 r2 rate index issue maturity fc fl i1 i2 l1 l2 -> k = k'.
Proof. intros k k' r1 r2 rate index issue maturity fc fl i1 i2 l1 l2. destruct k, k'; unfold fits; cbn zeta; intros H H'; try reflexivity; exfalso; decompose [and] H; decompose [and] H'; try congruence; lia. Qed.
(** from conventions: the legs are the two schedules *)
Lemma classify_true : forall r1 r2 rate index issue maturity fc fl i1 i2 l1 l2,
  classify true r1 r2 rate index issue maturity fc fl i1 i2 l1 l2 = classify (ccy_eqb fc fl) r1 r2 rate index issue maturity fc fl i1 i2 l1 l2 \/
  (fc <> fl /\ (i1 = None /\ i2 = None /\ l1 = None /\ l2 = None /\ index <> None /\ rate <> None) /\ classify true r1 r2 rate index issue maturity fc fl i1 i2 l1 l2 = Ret (ROk IRS)).
Proof.
  intros. unfold classify. destruct (ccy_cases fc fl) as [[-> Q]|[-> Q]]; [left; reflexivity|]. destruct rate as [?|], index as [?|], i1 as [?|], i2 as [?|], l1 as [?|], l2 as [?|]; cbn [some none negb andb]; try (left; reflexivity).
  right. split; [exact Q|]. repeat split; discriminate.
Qed.
Theorem c156_conventions : forall m fc fl i1 i2 l1 l2 notional issue effective maturity rate index comp forward d1 d2 v1 v2 f1 f2 fg pg a,
  let r := swap_from_conventions m fc fl i1 i2 l1 l2 notional issue effective maturity rate index comp forward d1 d2 v1 v2 f1 f2 fg pg a in
  (forall c1 c2, in_range (od_day issue + 2) = true -> build_schedule m forward effective maturity a v1 f1 fg pg = Ret (ROk c1) -> build_schedule m forward effective maturity a v2 f2 fg pg = Ret (ROk c2) ->
     let r1 := map (fun c => Row c None) c1 in let r2 := map (fun c => Row c None) c2 in
     (forall k, fits k r1 r2 rate index issue maturity fc fl i1 i2 l1 l2 -> exists s, r = Ret (ROk s) /\ sw_kind s = k /\ has_terms s r1 r2 rate index comp a notional issue effective maturity fc fl i1 i2 l1 l2 d1 d2 v1 v2 f1 f2 fg pg) /\
     (fc = fl \/ index = None \/ rate = None \/ i1 <> None -> (forall k, ~ fits k r1 r2 rate index issue maturity fc fl i1 i2 l1 l2) -> r = Ret RErr)) /\
  (build_schedule m forward effective maturity a v1 f1 fg pg = Ret RErr -> r = Ret RErr) /\
  (forall c1, build_schedule m forward effective maturity a v1 f1 fg pg = Ret (ROk c1) -> build_schedule m forward effective maturity a v2 f2 fg pg = Ret RErr -> r = Ret RErr).
Proof.
  intros until a. intro r. subst r. unfold swap_from_conventions. split; [|split; [intros ->; reflexivity|intros c1 -> ->; reflexivity]].
  intros c1 c2 R E1 E2. rewrite E1, E2. cbn [rbind]. set (r1 := map _ c1). set (r2 := map _ c2).
  destruct (c156_new r1 r2 rate index comp a notional issue effective maturity fc fl i1 i2 l1 l2 d1 d2 v1 v2 f1 f2 fg pg R) as [A B]. unfold swap_new in A, B.
  destruct (classify_true r1 r2 rate index issue maturity fc fl i1 i2 l1 l2) as [E|(NC & (Q1 & Q2 & Q3 & Q4 & Q5 & Q6) & E)].
  - rewrite E. split; [exact A|intros _; exact B].
  - split.
    + intros k F. exfalso. destruct k; unfold fits in F; cbn zeta in F; decompose [and] F; congruence.
    + intros [X|[X|[X|X]]]; congruence.
Qed.
(** REFUTED: legs in two currencies with no exchange are refused by [new], but
    made an interest rate swap by [new_from_conventions] *)
Theorem c156_two_currencies_refuted : forall m fc fl notional issue effective maturity rate index comp forward d1 d2 v1 v2 f1 f2 fg pg a c1 c2, fc <> fl ->
  build_schedule m forward effective maturity a v1 f1 fg pg = Ret (ROk c1) -> build_schedule m forward effective maturity a v2 f2 fg pg = Ret (ROk c2) ->
  (exists s, swap_from_conventions m fc fl None None None None notional issue effective maturity (Some rate) (Some index) comp forward d1 d2 v1 v2 f1 f2 fg pg a = Ret (ROk s) /\ sw_kind s = IRS) /\
  swap_new (map (fun c => Row c None) c1) (map (fun c => Row c None) c2) (Some rate) (Some index) comp a notional issue effective maturity fc fl None None None None d1 d2 v1 v2 f1 f2 fg pg = Ret RErr.
Proof.
  intros until c2. intros N E1 E2. unfold swap_from_conventions, swap_new. rewrite E1, E2. cbn [rbind]. unfold classify. cbn [some none negb andb rbind]. split; [eexists; split; reflexivity|].
  destruct (ccy_cases fc fl) as [[_ Q]|[-> _]]; [contradiction|reflexivity].
Qed.
(** REFUTED: no foreign exchange swap or forward comes from conventions: the
    frequency that stands for no coupons panics, and a schedule with coupons is
    refused *)
Theorem c156_fx_conventions_refuted : forall m fc fl i1 i2 l1 l2 notional issue effective maturity comp forward d1 d2 v1 v2 f1 f2 fg pg a,
  (0 <= fg -> 0 <= pg -> instant effective < instant maturity -> swap_from_conventions m fc fl i1 i2 l1 l2 notional issue effective maturity None None comp forward d1 d2 v1 v2 NoFrequency f2 fg pg a = Panic) /\
  (forall c1 c2, build_schedule m forward effective maturity a v1 f1 fg pg = Ret (ROk c1) -> build_schedule m forward effective maturity a v2 f2 fg pg = Ret (ROk c2) -> c1 <> [] ->
     swap_from_conventions m fc fl i1 i2 l1 l2 notional issue effective maturity None None comp forward d1 d2 v1 v2 f1 f2 fg pg a = Ret RErr).
Proof.
  intros until a. unfold swap_from_conventions. split.
  - intros G P L. rewrite (proj1 (proj2 (c105_refused m forward effective maturity a v1 f1 fg pg)) G P L). reflexivity.
  - intros c1 c2 -> -> N. cbn [rbind]. unfold classify. destruct c1 as [|c c1]; [contradiction|]. cbn [map empty some none negb]. repeat (rewrite ?andb_false_r; cbn [andb]). reflexivity.
Qed.

(** ** C157: fixed cash flows *)
Lemma collects_put : forall d v m l, collects m l -> ~ In (instant d) (map (fun p => instant (fst p)) m) -> collects (date_insert d v m) (l ++ [(d, v)]).
Proof. intros d v m l C N. rewrite (date_append d v m N). rewrite <- (cash_add_new m d v N). apply collects_add. exact C. Qed.
Lemma due_app : forall pricing l1 l2, due pricing (l1 ++ l2) = (due pricing l1 ++ due pricing l2)%list.
Proof. intros. apply filter_app. Qed.
Lemma due_one : forall pricing d v, due pricing [(d, v)] = if od_day pricing <=? od_day d then [(d, v)] else [].
Proof. intros. unfold due. cbn [filter fst]. destruct (od_day pricing <=? od_day d); reflexivity. Qed.
Lemma exchanges_collect : forall s pricing first last, apart s first last ->
  let r0 := match (if od_day pricing <=? od_day (sw_effective s) then first else None) with Some v => date_insert (sw_effective s) v [] | None => [] end in
  collects (if od_day pricing <=? od_day (sw_maturity s) then match last with Some v => date_insert (sw_maturity s) v r0 | None => r0 end else r0) (due pricing (exchanges s first last)).
Proof.
  intros s pricing first last A r0. unfold exchanges. rewrite due_app.
  assert (C0 : collects r0 (due pricing match first with Some v => [(sw_effective s, v)] | None => [] end)).
  { unfold r0. destruct first as [v|]; [rewrite due_one|]; destruct (od_day pricing <=? od_day (sw_effective s)); try exact collects_nil. apply (collects_put (sw_effective s) v [] []); [exact collects_nil|intros []]. }
  destruct last as [w|]; [rewrite due_one|]; destruct (od_day pricing <=? od_day (sw_maturity s)); try (cbn [due filter]; rewrite app_nil_r; exact C0).
  apply collects_put; [exact C0|]. unfold r0. destruct A as [-> |[A|A]]; [destruct (od_day pricing <=? od_day (sw_effective s)); intros []|discriminate A|].
  destruct first as [v|]; destruct (od_day pricing <=? od_day (sw_effective s)); cbn; tauto.
Qed.
Lemma fixed_start : forall s pricing, apart s (sw_init_fixed s) (sw_last_fixed s) ->
  exists r0, collects r0 (due pricing (fixed_exchanges s)) /\ fixed_cashflows s pricing =
    match sw_rate s with None => Ret (ROk r0) | Some rate => if empty (sw_fixed_rows s) then Ret (ROk r0) else fixed_loop s rate match sw_init_fixed s with Some v => v | None => gof_Z 1 end (sw_fixed_rows s) pricing r0 end.
Proof.
  intros s pricing A. pose proof (exchanges_collect s pricing (sw_init_fixed s) (option_map gneg (sw_last_fixed s))) as C. cbn zeta in C. unfold fixed_cashflows.
  assert (A' : apart s (sw_init_fixed s) (option_map gneg (sw_last_fixed s))) by (destruct A as [A|[A|A]]; unfold apart; [tauto|rewrite A; tauto|tauto]). specialize (C A').
  eexists. split; [exact C|]. destruct (sw_init_fixed s) as [v|], (sw_last_fixed s) as [w|]; cbn [option_map some andb]; destruct (od_day pricing <=? od_day (sw_effective s)); cbn [andb]; reflexivity.
Qed.
Lemma fixed_loop_ok : forall s rate initial pricing rows xs m l, collects m l ->
  Forall2 (fun r x => od_day (payment_date (rw_dates r)) < od_day pricing \/ fixed_pays s rate initial r x) rows xs ->
  exists m', fixed_loop s rate initial rows pricing m = Ret (ROk m') /\ collects m' (l ++ due pricing (paid_on rows xs)).
Proof.
  intros s rate initial pricing rows xs m l C H. revert m l C. unfold paid_on. induction H as [|r x rows xs A H IH]; intros m l C; cbn [fixed_loop map combine due filter fst].
  - exists m. split; [reflexivity|]. rewrite app_nil_r. exact C.
  - unfold due. cbn [filter fst]. destruct (Z.ltb_spec (od_day (payment_date (rw_dates r))) (od_day pricing)) as [L|L].
    + destruct (IH m l C) as (m' & E & C'). exists m'. split; [exact E|]. rewrite (proj2 (Z.leb_gt _ _) L). exact C'.
    + destruct A as [A|(f & Y & ->)]; [lia|]. rewrite Y. cbn [rbind]. rewrite (proj2 (Z.leb_le _ _) L).
      destruct (IH _ _ (collects_add m l (payment_date (rw_dates r)) (gmul (gmul (gneg rate) f) initial) C)) as (m' & E & C'). exists m'. split; [exact E|]. rewrite <- app_assoc in C'. exact C'.
Qed.
(** the exchanges and the coupons, from the pricing day on *)
Theorem c157_flows : forall s pricing rate size xs, apart s (sw_init_fixed s) (sw_last_fixed s) -> sw_rate s = Some rate -> size_of (sw_init_fixed s) size ->
  Forall2 (fun r x => od_day (payment_date (rw_dates r)) < od_day pricing \/ fixed_pays s rate size r x) (sw_fixed_rows s) xs ->
  exists m, fixed_cashflows s pricing = Ret (ROk m) /\ collects m (due pricing (fixed_exchanges s ++ paid_on (sw_fixed_rows s) xs)).
Proof.
  intros s pricing rate size xs A R Z H. destruct (fixed_start s pricing A) as (r0 & C & E). rewrite E, R.
  assert (Z' : match sw_init_fixed s with Some v => v | None => gof_Z 1 end = size) by (destruct Z as [-> |[-> ->]]; reflexivity). rewrite Z'.
  destruct (empty_cases (sw_fixed_rows s)) as [[-> Q]|[-> Q]].
  - exists r0. split; [reflexivity|]. rewrite Q in *. inversion H; subst. cbn. rewrite app_nil_r. exact C.
  - rewrite due_app. exact (fixed_loop_ok s rate size pricing _ xs r0 _ C H).
Qed.
Theorem c157_no_rate : forall s pricing, apart s (sw_init_fixed s) (sw_last_fixed s) -> sw_rate s = None -> exists m, fixed_cashflows s pricing = Ret (ROk m) /\ collects m (due pricing (fixed_exchanges s)).
Proof. intros s pricing A R. destruct (fixed_start s pricing A) as (r0 & C & E). rewrite E, R. exists r0. auto. Qed.
(** a coupon that is due and has no year fraction is an error *)
Theorem c157_error : forall s pricing rate, sw_rate s = Some rate ->
  (forall r, In r (sw_fixed_rows s) -> exists x, year_fraction (sw_cal s) (calc_start_date (rw_dates r)) (calc_end_date (rw_dates r)) (sw_fixed_dc s) = Ret x) ->
  (exists r, In r (sw_fixed_rows s) /\ od_day pricing <= od_day (payment_date (rw_dates r)) /\ year_fraction (sw_cal s) (calc_start_date (rw_dates r)) (calc_end_date (rw_dates r)) (sw_fixed_dc s) = Ret RErr) ->
  fixed_cashflows s pricing = Ret RErr.
Proof.
  intros s pricing rate R T X. unfold fixed_cashflows. rewrite R. destruct (empty_cases (sw_fixed_rows s)) as [[-> Q]|[-> Q]].
  - destruct X as (r & I & _). rewrite Q in I. destruct I.
  - generalize (match sw_init_fixed s with Some v => v | None => gof_Z 1 end) as size. intro size.
    match goal with |- fixed_loop _ _ _ _ _ ?m = _ => generalize m end. clear Q R. revert T X. induction (sw_fixed_rows s) as [|r0 rows IH]; intros T (r & I & D & E) m; [destruct I|]. cbn [fixed_loop].
    destruct (Z.ltb_spec (od_day (payment_date (rw_dates r0))) (od_day pricing)) as [L|L].
    + destruct I as [<-|I]; [lia|]. apply IH; [intros r1 I1; apply T; right; exact I1|]. exists r. auto.
    + destruct (T r0 (or_introl eq_refl)) as (y & Y). rewrite Y. destruct y as [y|]; cbn [rbind]; [|reflexivity]. destruct I as [<-|I]; [congruence|]. apply IH; [intros r1 I1; apply T; right; exact I1|]. exists r. auto.
Qed.
(** a coupon is minus rate times fraction times size, up to rounding *)
Open Scope R_scope.
Lemma three_times : forall r f z, usual r -> usual f -> usual z ->
  exists v, fn (gmul (gmul r f) z) v /\ Rabs (v - value r * value f * value z) <= Rabs (value r * value f * value z) * (3 / 2 ^ 24) + / 2 ^ 118.
Proof.
  intros r f z [Fr Br] [Ff Bf] [Fz Bz]. rewrite p30 in Br, Bf, Bz. set (a := value r) in *. set (b := value f) in *. set (c := value z) in *.
  assert (AB : Rabs (a * b) <= 1073741824 * 1073741824) by (rewrite Rabs_mult; apply Rmult_le_compat; try apply Rabs_pos; assumption).
  destruct (mul_err r f a b (conj Fr eq_refl) (conj Ff eq_refl)) as (p & d1 & t1 & Fp & D1 & T1 & Ep); [apply two100_127; unfold two100; lra|].
  assert (T0 : tiny <= 1) by apply tiny_1. assert (TP : 0 <= tiny) by (apply Rle_trans with (2 := T1); apply Rabs_pos).
  assert (Bp : Rabs p <= 2 * (1073741824 * 1073741824) + 1).
  { rewrite Ep. apply Rle_trans with (1 := Rabs_triang _ _). assert (Rabs (a * b * (1 + d1)) <= 1073741824 * 1073741824 * 2); [|lra]. rewrite Rabs_mult. apply Rmult_le_compat; try apply Rabs_pos; [exact AB|].
    apply Rle_trans with (1 := Rabs_triang _ _). rewrite Rabs_R1. unfold e24 in D1. lra. }
  destruct (mul_err (gmul r f) z p c Fp (conj Fz eq_refl)) as (v & d2 & t2 & Fv & D2 & T2 & Ev).
  { apply two100_127. rewrite Rabs_mult. apply Rle_trans with ((2 * (1073741824 * 1073741824) + 1) * 1073741824); [apply Rmult_le_compat; try apply Rabs_pos; assumption|unfold two100; lra]. }
  exists v. split; [exact Fv|]. set (M := Rabs (a * b * c)).
  replace (v - a * b * c) with (a * b * c * (d1 + d2 + d1 * d2) + (t1 * c * (1 + d2) + t2)) by (rewrite Ev, Ep; ring).
  apply Rle_trans with (1 := Rabs_triang _ _). apply Rplus_le_compat.
  - rewrite Rabs_mult. fold M. apply Rmult_le_compat_l; [apply Rabs_pos|]. assert (P24 : 2 ^ 24 = 16777216) by (rewrite pow_IZR; reflexivity). rewrite P24.
    apply Rle_trans with (1 := Rabs_triang _ _). apply Rle_trans with (e24 + e24 + e24 * e24); [|unfold e24; lra]. apply Rplus_le_compat.
    + apply Rle_trans with (1 := Rabs_triang _ _). lra.
    + rewrite Rabs_mult. apply Rmult_le_compat; try apply Rabs_pos; assumption.
  - apply Rle_trans with (1 := Rabs_triang _ _). rewrite !Rabs_mult.
    assert (X : Rabs t1 * Rabs c * Rabs (1 + d2) <= tiny * 1073741824 * 2).
    { apply Rmult_le_compat; [apply Rmult_le_pos; apply Rabs_pos|apply Rabs_pos|apply Rmult_le_compat; try apply Rabs_pos; assumption|]. apply Rle_trans with (1 := Rabs_triang _ _). rewrite Rabs_R1. unfold e24 in D2. lra. }
    apply Rle_trans with (tiny * 4294967296); [lra|]. replace 4294967296 with (bpow radix2 32) by reflexivity. unfold tiny. rewrite <- bpow_plus. apply Rle_trans with (bpow radix2 (Z.opp 118)); [apply bpow_le; lia|].
    rewrite (bpow_opp radix2 118). rewrite <- (IZR_Zpower radix2 118) by lia. rewrite pow_IZR. apply Rle_refl.
Qed.
Theorem c157_coupon : forall s rate size r x f, fixed_pays s rate size r x -> year_fraction (sw_cal s) (calc_start_date (rw_dates r)) (calc_end_date (rw_dates r)) (sw_fixed_dc s) = Ret (ROk f) -> usual rate -> usual size -> usual f ->
  finite x /\ Rabs (value x - - (value rate * value f * value size)) <= Rabs (value rate * value f * value size) * (3 / 2 ^ 24) + / 2 ^ 118.
Proof.
  intros s rate size r x f (f' & Y & ->) Y' UR US UF. assert (f' = f) by congruence. subst f'. destruct UR as [FR BR].
  destruct (fin_neg 24 128 rate (value rate) (conj FR eq_refl)) as [FN VN]. fold (value (gneg rate)) in VN.
  assert (UN : usual (gneg rate)) by (split; [exact FN|rewrite VN, Rabs_Ropp; exact BR]).
  destruct (three_times (gneg rate) f size UN UF US) as (v & [Fv Vv] & Q). split; [exact Fv|]. unfold value at 1. rewrite Vv. rewrite VN in Q.
  replace (- value rate * value f * value size) with (- (value rate * value f * value size)) in Q by ring. rewrite Rabs_Ropp in Q. exact Q.
Qed.
Open Scope Z_scope.
(** REFUTED: with both exchanges on one point in time the first is overwritten *)
Theorem c157_overwritten_refuted : forall s pricing v w, sw_init_fixed s = Some v -> sw_last_fixed s = Some w -> instant (sw_effective s) = instant (sw_maturity s) -> od_day pricing <= od_day (sw_effective s) -> od_day pricing <= od_day (sw_maturity s) ->
  sw_rate s = None -> fixed_cashflows s pricing = Ret (ROk [(sw_effective s, gneg w)]).
Proof.
  intros s pricing v w I L E D1 D2 R. unfold fixed_cashflows. rewrite I, L, R. rewrite (proj2 (Z.leb_le _ _) D1), (proj2 (Z.leb_le _ _) D2). cbn [some andb date_insert]. rewrite (proj2 (Z.eqb_eq _ _) E). reflexivity.
Qed.
(** REFUTED: an amount given in the schedule is not what is paid; it is ignored *)
Definition with_rows (s : swap) (fixed_rows float_rows : list row) : swap :=
  Swap fixed_rows float_rows (sw_rate s) (sw_index s) (sw_comp s) (sw_cal s) (sw_notional s) (sw_issue s) (sw_effective s) (sw_maturity s) (sw_fixed_ccy s) (sw_float_ccy s) (sw_fx s)
    (sw_init_fixed s) (sw_init_float s) (sw_last_fixed s) (sw_last_float s) (sw_fixed_dc s) (sw_float_dc s) (sw_fixed_conv s) (sw_float_conv s) (sw_fixed_freq s) (sw_float_freq s) (sw_fix_gap s) (sw_pay_gap s) (sw_kind s).
Theorem c157_amounts_refuted : forall s amounts pricing, length amounts = length (sw_fixed_rows s) ->
  fixed_cashflows (with_rows s (map (fun p => Row (rw_dates (fst p)) (snd p)) (combine (sw_fixed_rows s) amounts)) (sw_float_rows s)) pricing = fixed_cashflows s pricing.
Proof.
  intros s amounts pricing L. unfold fixed_cashflows. cbn [sw_init_fixed sw_last_fixed sw_effective sw_maturity sw_rate sw_fixed_rows with_rows]. destruct (sw_rate s) as [rate|]; [|reflexivity].
  generalize (match sw_init_fixed s with Some v => v | None => gof_Z 1 end) as size. intro size.
  assert (G : forall rows ams, length ams = length rows -> empty (map (fun p => Row (rw_dates (fst p)) (snd p)) (combine rows ams)) = empty rows) by (intros [|r rows] [|x ams] Q; try discriminate Q; reflexivity).
  rewrite G by exact L. destruct (empty (sw_fixed_rows s)); [reflexivity|]. match goal with |- fixed_loop _ _ _ _ _ ?m = _ => generalize m end. clear G. revert amounts L.
  assert (P : forall s' rows ams m, sw_cal s' = sw_cal s -> sw_fixed_dc s' = sw_fixed_dc s -> length ams = length rows -> fixed_loop s' rate size (map (fun p => Row (rw_dates (fst p)) (snd p)) (combine rows ams)) pricing m = fixed_loop s rate size rows pricing m).
  { intros s' rows. induction rows as [|r rows IH]; intros [|x ams] m E1 E2 L; try discriminate L; [reflexivity|]. cbn [combine map fixed_loop rw_dates fst]. rewrite E1, E2. injection L as L. destruct (od_day (payment_date (rw_dates r)) <? od_day pricing); [apply IH; assumption|].
    destruct (year_fraction (sw_cal s) (calc_start_date (rw_dates r)) (calc_end_date (rw_dates r)) (sw_fixed_dc s)) as [[y|]| |]; cbn [rbind]; try reflexivity. apply IH; assumption. }
  intros amounts L m. apply P; [reflexivity|reflexivity|exact L].
Qed.

(** ** C158: floating cash flows *)
Section Floating.
Context (f_ln : f32 -> f32).
Definition float_size (s : swap) (pricing : odt) : f32 := match (if od_day pricing <=? od_day (sw_effective s) then sw_init_float s else None) with Some v => v | None => gof_Z 1 end.
Lemma float_start : forall s eval pricing fwd past, apart s (sw_init_float s) (sw_last_float s) ->
  exists r0, collects r0 (due pricing (float_exchanges s)) /\ float_cashflows f_ln s eval pricing fwd past =
    match sw_index s with None => Ret (ROk r0) | Some tenor => if empty (sw_float_rows s) then Ret (ROk r0) else float_loop f_ln s tenor (float_size s pricing) (sw_float_rows s) eval pricing fwd past r0 end.
Proof.
  intros s eval pricing fwd past A. pose proof (exchanges_collect s pricing (option_map gneg (sw_init_float s)) (sw_last_float s)) as C. cbn zeta in C. unfold float_cashflows, float_size.
  assert (A' : apart s (option_map gneg (sw_init_float s)) (sw_last_float s)) by (destruct A as [A|[A|A]]; unfold apart; [rewrite A; tauto|tauto|tauto]). specialize (C A').
  eexists. split; [exact C|]. destruct (sw_init_float s) as [v|], (sw_last_float s) as [w|]; cbn [option_map]; destruct (od_day pricing <=? od_day (sw_effective s)); reflexivity.
Qed.
Lemma float_loop_ok : forall s tenor size eval pricing fwd past rows xs m l, collects m l ->
  Forall2 (fun r x => od_day (payment_date (rw_dates r)) < od_day pricing \/ float_pays f_ln s tenor eval pricing fwd past size r x) rows xs ->
  exists m', float_loop f_ln s tenor size rows eval pricing fwd past m = Ret (ROk m') /\ collects m' (l ++ due pricing (paid_on rows xs)).
Proof.
  intros s tenor size eval pricing fwd past rows xs m l C H. revert m l C. unfold paid_on. induction H as [|r x rows xs A H IH]; intros m l C; cbn [float_loop map combine due filter fst].
  - exists m. split; [reflexivity|]. rewrite app_nil_r. exact C.
  - unfold due. cbn [filter fst]. destruct (Z.ltb_spec (od_day (payment_date (rw_dates r))) (od_day pricing)) as [L|L].
    + destruct (IH m l C) as (m' & E & C'). exists m'. split; [exact E|]. rewrite (proj2 (Z.leb_gt _ _) L). exact C'.
    + destruct A as [A|(c & p & y & F & P & Y & ->)]; [lia|]. rewrite F. assert (P' : match past with Some p0 => p0 | None => no_closes end = p) by (destruct P as [-> |[-> ->]]; reflexivity). rewrite P', Y. cbn [rbind]. rewrite (proj2 (Z.leb_le _ _) L).
      destruct (IH _ _ (collects_add m l (payment_date (rw_dates r)) (gmul y size) C)) as (m' & E & C'). rewrite F in E. exists m'. split; [exact E|]. rewrite <- app_assoc in C'. exact C'.
Qed.
(** up to the effective day: the exchanges and the coupons on the amount
    exchanged first *)
Theorem c158_flows : forall s eval pricing fwd past tenor size xs, apart s (sw_init_float s) (sw_last_float s) -> sw_index s = Some tenor -> od_day pricing <= od_day (sw_effective s) -> size_of (sw_init_float s) size ->
  Forall2 (fun r x => od_day (payment_date (rw_dates r)) < od_day pricing \/ float_pays f_ln s tenor eval pricing fwd past size r x) (sw_float_rows s) xs ->
  exists m, float_cashflows f_ln s eval pricing fwd past = Ret (ROk m) /\ collects m (due pricing (float_exchanges s ++ paid_on (sw_float_rows s) xs)).
Proof.
  intros s eval pricing fwd past tenor size xs A R D Z H. destruct (float_start s eval pricing fwd past A) as (r0 & C & E). rewrite E, R.
  assert (Z' : float_size s pricing = size) by (unfold float_size; rewrite (proj2 (Z.leb_le _ _) D); destruct Z as [-> |[-> ->]]; reflexivity). rewrite Z'.
  destruct (empty_cases (sw_float_rows s)) as [[-> Q]|[-> Q]].
  - exists r0. split; [reflexivity|]. rewrite Q in *. inversion H; subst. cbn. rewrite app_nil_r. exact C.
  - rewrite due_app. exact (float_loop_ok s tenor size eval pricing fwd past _ xs r0 _ C H).
Qed.
Theorem c158_no_index : forall s eval pricing fwd past, apart s (sw_init_float s) (sw_last_float s) -> sw_index s = None -> exists m, float_cashflows f_ln s eval pricing fwd past = Ret (ROk m) /\ collects m (due pricing (float_exchanges s)).
Proof. intros s eval pricing fwd past A R. destruct (float_start s eval pricing fwd past A) as (r0 & C & E). rewrite E, R. exists r0. auto. Qed.
(** REFUTED: after the effective day the coupons are on 1, whatever was
    exchanged first; with rows that pay [y] per unit the cash flows hold [y] *)
Theorem c158_seasoned_refuted : forall s eval pricing fwd past tenor xs, apart s (sw_init_float s) (sw_last_float s) -> sw_index s = Some tenor -> od_day (sw_effective s) < od_day pricing ->
  Forall2 (fun r x => od_day (payment_date (rw_dates r)) < od_day pricing \/ float_pays f_ln s tenor eval pricing fwd past (gof_Z 1) r x) (sw_float_rows s) xs ->
  exists m, float_cashflows f_ln s eval pricing fwd past = Ret (ROk m) /\ collects m (due pricing (float_exchanges s ++ paid_on (sw_float_rows s) xs)).
Proof.
  intros s eval pricing fwd past tenor xs A R D H. destruct (float_start s eval pricing fwd past A) as (r0 & C & E). rewrite E, R.
  assert (Z' : float_size s pricing = gof_Z 1) by (unfold float_size; rewrite (proj2 (Z.leb_gt _ _) D); reflexivity). rewrite Z'.
  destruct (empty_cases (sw_float_rows s)) as [[-> Q]|[-> Q]].
  - exists r0. split; [reflexivity|]. rewrite Q in *. inversion H; subst. cbn. rewrite app_nil_r. exact C.
  - rewrite due_app. exact (float_loop_ok s tenor (gof_Z 1) eval pricing fwd past _ xs r0 _ C H).
Qed.
(** REFUTED: without forward curve a coupon that is due panics *)
Theorem c158_no_curve_refuted : forall s eval pricing past tenor r, sw_index s = Some tenor -> In r (sw_float_rows s) -> od_day pricing <= od_day (payment_date (rw_dates r)) -> float_cashflows f_ln s eval pricing None past = Panic.
Proof.
  intros s eval pricing past tenor r R I D. unfold float_cashflows. rewrite R. destruct (match (if od_day pricing <=? od_day (sw_effective s) then sw_init_float s else None) with Some v => (v, date_insert (sw_effective s) (gneg v) []) | None => (gof_Z 1, []) end) as [size r0].
  destruct (empty_cases (sw_float_rows s)) as [[-> Q]|[-> Q]]; [rewrite Q in I; destruct I|]. match goal with |- float_loop _ _ _ _ _ _ _ _ _ ?m = _ => generalize m end. clear Q. revert I. induction (sw_float_rows s) as [|r1 rows IH]; intros I m; [destruct I|]. cbn [float_loop].
  destruct (Z.ltb_spec (od_day (payment_date (rw_dates r1))) (od_day pricing)) as [L|L]; [|reflexivity]. destruct I as [<-|I]; [lia|apply IH; exact I].
Qed.
(** a coupon is what the index pays per unit times the size, up to rounding *)
Open Scope R_scope.
Theorem c158_coupon : forall s tenor eval pricing c p size r x y, float_pays f_ln s tenor eval pricing (Some c) (Some p) size r x ->
  coupon_amount f_ln tenor (rw_dates r) None eval c p pricing (sw_comp s) (sw_cal s) (sw_float_dc s) (sw_fix_gap s) = Ret (ROk y) -> usual y -> usual size ->
  finite x /\ Rabs (value x - value y * value size) <= Rabs (value y * value size) * (3 / 2 ^ 24) + / 2 ^ 118.
Proof.
  intros s tenor eval pricing c p size r x y (c' & p' & y' & Ec & Ep & Y & ->) Y' UY US. assert (c' = c) by congruence. subst c'.
  assert (p' = p) by (destruct Ep as [Ep|[Ep _]]; congruence). subst p'. assert (y' = y) by congruence. subst y'.
  destruct (three_times y (gof_Z 1) size UY (usual_small 1 ltac:(lia)) US) as (v & [Fv Vv] & Q). destruct UY as [FY BY]. rewrite (times_one y FY) in Fv, Vv.
  split; [exact Fv|]. unfold value at 1. rewrite Vv. destruct one_fn as [_ V1]. fold (value (gof_Z 1)) in V1. rewrite V1, Rmult_1_r in Q. exact Q.
Qed.
End Floating.

(** ** The hypotheses are met *)
(** a currency swap of 1300 won against 2 dollars, from 15 March to 16
    September 2024, one fixed and one floating coupon, the latter fixed on 14
    March *)
Definition ex_fixed_row : row := Row (Coupon (day_of 2024 3 15) (day_of 2024 3 15) (day_of 2024 9 15) (day_of 2024 9 16)) None.
Definition ex_float_row : row := Row (Coupon (day_of 2024 3 14) (day_of 2024 3 15) (day_of 2024 6 15) (day_of 2024 6 17)) None.
Definition ex_recorded : closes := record_close no_closes (od_day (day_of 2024 3 14)) eighth.
Definition ex_tenor : list ascii := ["3"; "M"]%char.
Definition ex_crs_of (issue effective maturity : odt) (first last first' last' : option f32) (rate : option f32) (index : option (list ascii)) (rows rows' : list row) (k : swap_type) : swap :=
  Swap rows rows' rate index None ex_kr (gof_Z 100) issue effective maturity Ccy_KRW Ccy_USD (Some (FxCode Ccy_USD Ccy_KRW)) first first' last last'
    Actual365Fixed Actual365Fixed ModifiedFollowing ModifiedFollowing SemiAnnually Quarterly 1 0 k.
Definition ex_crs : swap := ex_crs_of (day_of 2024 3 13) (day_of 2024 3 15) (day_of 2024 9 16) (Some (gof_Z 1300)) (Some (gof_Z 1300)) (Some (gof_Z 2)) (Some (gof_Z 2)) (Some sixteenth) (Some ex_tenor) [ex_fixed_row] [ex_float_row] CRS.
Definition ex_forward : swap := ex_crs_of (day_of 2024 3 13) (day_of 2024 3 15) (day_of 2024 9 16) None (Some (gof_Z 1300)) None (Some (gof_Z 2)) None None [] [] FxForward.
Example c156_hypotheses_met : in_range (od_day (day_of 2024 3 13) + 2)%Z = true /\
  fits CRS [ex_fixed_row] [ex_float_row] (Some sixteenth) (Some ex_tenor) (day_of 2024 3 13) (day_of 2024 9 16) Ccy_KRW Ccy_USD (Some (gof_Z 1300)) (Some (gof_Z 2)) (Some (gof_Z 1300)) (Some (gof_Z 2)) /\
  fits FxForward [] [] None None (day_of 2024 3 13) (day_of 2024 9 16) Ccy_KRW Ccy_USD None None (Some (gof_Z 1300)) (Some (gof_Z 2)) /\
  fits FxSpot [] [] None None (day_of 2024 3 13) (day_of 2024 3 15) Ccy_KRW Ccy_USD None None (Some (gof_Z 1300)) (Some (gof_Z 2)) /\
  (forall k, ~ fits k [] [] None None (day_of 2024 3 13) (day_of 2024 3 15) Ccy_KRW Ccy_USD None None None None) /\
  exists c1 c2, build_schedule Checked true (day_of 2024 3 15) (day_of 2026 3 15) (One (new_south_korea KrKrx)) ModifiedFollowing SemiAnnually 1 0 = Ret (ROk c1) /\
    build_schedule Checked true (day_of 2024 3 15) (day_of 2026 3 15) (One (new_south_korea KrKrx)) ModifiedFollowing SemiAnnually 1 0 = Ret (ROk c2) /\ c1 <> [] /\ Ccy_KRW <> Ccy_USD.
Proof.
  split; [reflexivity|]. split; [repeat split; discriminate|]. split; [repeat split; try discriminate; vm_compute; reflexivity|]. split; [repeat split; try discriminate; vm_compute; discriminate|].
  split; [intros [] H; unfold fits in H; cbn zeta in H; intuition congruence|].
  destruct c143_hypotheses_met as (cs & E & L). exists cs, cs. split; [exact E|]. split; [exact E|]. split; [intros ->; discriminate L|discriminate].
Qed.
Example c157_hypotheses_met : exists x f, apart ex_crs (sw_init_fixed ex_crs) (sw_last_fixed ex_crs) /\ sw_rate ex_crs = Some sixteenth /\ size_of (sw_init_fixed ex_crs) (gof_Z 1300) /\
  Forall2 (fun r x => (od_day (payment_date (rw_dates r)) < od_day ex_eval)%Z \/ fixed_pays ex_crs sixteenth (gof_Z 1300) r x) (sw_fixed_rows ex_crs) [x] /\
  year_fraction (sw_cal ex_crs) (calc_start_date (rw_dates ex_fixed_row)) (calc_end_date (rw_dates ex_fixed_row)) (sw_fixed_dc ex_crs) = Ret (ROk f) /\ usual f /\ usual sixteenth /\ usual (gof_Z 1300).
Proof.
  destruct (unit_usual (year_fraction ex_kr (day_of 2024 3 15) (day_of 2024 9 15) Actual365Fixed) ltac:(vm_compute; reflexivity)) as (f & Ef & Uf & _). destruct eighth_value as (F8 & V8 & F16 & V16).
  exists (gmul (gmul (gneg sixteenth) f) (gof_Z 1300)), f. split; [right; right; vm_compute; discriminate|]. split; [reflexivity|]. split; [left; reflexivity|].
  split; [constructor; [|constructor]; right; exists f; split; [exact Ef|reflexivity]|]. split; [exact Ef|]. split; [exact Uf|]. split; [split; [exact F16|rewrite V16, p30, Rabs_pos_eq; lra]|].
  destruct (small_fin 1300 ltac:(lia)) as [F13 R13]. split; [exact F13|]. unfold value, real_of in *. rewrite R13, p30, Rabs_pos_eq; lra.
Qed.
(** a swap
    whose exchanges fall together *)
Example c157_overwritten_hypotheses_met : let s := ex_crs_of (day_of 2024 3 13) (day_of 2024 3 15) (day_of 2024 3 15) (Some (gof_Z 3)) (Some (gof_Z 4)) (Some (gof_Z 2)) (Some (gof_Z 2)) None None [] [] FxSwap in
  sw_init_fixed s = Some (gof_Z 3) /\ sw_last_fixed s = Some (gof_Z 4) /\ instant (sw_effective s) = instant (sw_maturity s) /\ (od_day ex_eval <= od_day (sw_effective s))%Z /\ sw_rate s = None.
Proof. repeat split; vm_compute; discriminate. Qed.
Lemma ex_float_coupon : forall f_ln c, exists y, coupon_amount f_ln ex_tenor (rw_dates ex_float_row) None ex_eval c ex_recorded ex_eval None ex_kr Actual365Fixed 1 = Ret (ROk y) /\ usual y /\ (0 <= value y <= 1)%R.
Proof. intros f_ln c. apply unit_usual. vm_compute. reflexivity. Qed.
Example c158_hypotheses_met : exists c y, apart ex_crs (sw_init_float ex_crs) (sw_last_float ex_crs) /\ sw_index ex_crs = Some ex_tenor /\ (od_day ex_eval <= od_day (sw_effective ex_crs))%Z /\ size_of (sw_init_float ex_crs) (gof_Z 2) /\
  Forall2 (fun r x => (od_day (payment_date (rw_dates r)) < od_day ex_eval)%Z \/ float_pays (fun x => x) ex_crs ex_tenor ex_eval ex_eval (Some c) (Some ex_recorded) (gof_Z 2) r x) (sw_float_rows ex_crs) [gmul y (gof_Z 2)] /\
  coupon_amount (fun x => x) ex_tenor (rw_dates ex_float_row) None ex_eval c ex_recorded ex_eval (sw_comp ex_crs) (sw_cal ex_crs) (sw_float_dc ex_crs) (sw_fix_gap ex_crs) = Ret (ROk y) /\ usual y /\ usual (gof_Z 2).
Proof.
  destruct ex_curve as (c & _). destruct (ex_float_coupon (fun x => x) c) as (y & E & U & _). exists c, y. split; [right; right; vm_compute; discriminate|]. split; [reflexivity|]. split; [vm_compute; discriminate|]. split; [left; reflexivity|].
  split; [|split; [exact E|split; [exact U|apply usual_small; lia]]]. constructor; [|constructor]. right. exists c, ex_recorded, y. split; [reflexivity|]. split; [left; reflexivity|]. split; [exact E|reflexivity].
Qed.
(** the same swap one day after its start *)
Example c158_seasoned_hypotheses_met : exists c y, let next := day_of 2024 3 16 in (od_day (sw_effective ex_crs) < od_day next)%Z /\ value (gof_Z 2 : f32) = 2%R /\
  Forall2 (fun r x => (od_day (payment_date (rw_dates r)) < od_day next)%Z \/ float_pays (fun x => x) ex_crs ex_tenor next next (Some c) (Some ex_recorded) (gof_Z 1) r x) (sw_float_rows ex_crs) [gmul y (gof_Z 1)].
Proof.
  destruct ex_curve as (c & _). destruct (unit_usual (coupon_amount (fun x => x) ex_tenor (rw_dates ex_float_row) None (day_of 2024 3 16) c ex_recorded (day_of 2024 3 16) None ex_kr Actual365Fixed 1) ltac:(vm_compute; reflexivity)) as (y & E & _).
  exists c, y. split; [vm_compute; reflexivity|]. split; [destruct (small_fin 2 ltac:(lia)) as [_ R]; exact R|]. constructor; [|constructor]. right. exists c, ex_recorded, y. split; [reflexivity|]. split; [left; reflexivity|]. split; [exact E|reflexivity].
Qed.
Print Assumptions c156_new.
Print Assumptions c156_one_kind.
Print Assumptions c156_conventions.
Print Assumptions c156_two_currencies_refuted.
Print Assumptions c156_fx_conventions_refuted.
Print Assumptions c157_flows.
Print Assumptions c157_no_rate.
Print Assumptions c157_error.
Print Assumptions c157_coupon.
Print Assumptions c157_overwritten_refuted.
Print Assumptions c157_amounts_refuted.
Print Assumptions c158_flows.
Print Assumptions c158_no_index.
Print Assumptions c158_seasoned_refuted.
Print Assumptions c158_no_curve_refuted.
Print Assumptions c158_coupon.
