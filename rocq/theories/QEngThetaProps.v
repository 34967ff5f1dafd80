(** QEngThetaProps.v -- C192: theta. *)
From Coq Require Import ZArith Arith Ascii String.
From Coq Require Import List Bool Lia.
From Verif Require Import Base FloatModel FloatFacts KrxModel QDateModel QYearModel QPeriodModel QPeriodSpec QFindModel QInterpModel QDivModel QDivSpec QDivProps QRollProps QCurveModel QMoneyModel QBondModel QFutModel QInstModel QInstProps QMatchProps QVolModel QEngModel QEngSpec QEngProofs QEngFrame QEngProps QEngDeltaProps QEngBump QEngBumpProps QEngLadder QEngLadderProps.
Import ListNotations.
Open Scope Z_scope.

Lemma paid_ok : forall from upto l, cash_between from upto l = paid from upto l.
Proof.
  intros from upto l. unfold cash_between, paid. generalize (gof_Z 0 : f32). induction l as [|p l IH]; intro a; [reflexivity|]. cbn [fold_left List.filter]. destruct ((od_day from <? od_day (fst p)) && (od_day (fst p) <=? od_day upto)); [cbn [map fold_left]; apply IH|apply IH].
Qed.
Lemma move_ok : forall d s y s', move_date d s = Ret (ROk y, s') -> date_moved d (st_market s) (st_market s') /\ st_results s' = st_results s /\ st_action s' = st_action s.
Proof.
  intros d s y s' H. unfold move_date in H. step H g s1 E1. apply get_ok in E1. destruct E1 as [-> ->]. step H w s2 E2. apply total_ok in E2. destruct E2 as [E2 ->]. apply set_market_ok in H. subst s'. cbn [st_market st_results st_action]. split; [|auto]. split; [exact E2|]. repeat split.
Qed.
Definition theta_only (U : instrument -> Prop) (c : string) (x : cell) : Prop := x = ThetaCell /\ exists i, U i /\ c = code i.
Lemma set_theta_else : forall v c x, x <> ThetaCell -> same_at c (set_theta v c) x.
Proof. intros v c x N. destruct x; cbn; try reflexivity. contradiction N. reflexivity. Qed.

Section Theta.
Variable cx : context.
Lemma theta_for_ok : forall is d s s', coded is -> (forall i, In i is -> ~ In (type_name i) ["Stock"; "Cash"]%string) -> theta_for cx is d s = Ret (ROk tt, s') ->
  let eval := w_date (mk_world (st_market s)) in only (theta_only (fun i => In i is)) s s' /\ exists later years, date_moved d (st_market s) later /\ date_moved eval later (st_market s') /\ get_time_difference eval d = Ret years /\
    forall i, In i is -> exists npv up unit flows, priced cx (st_market s) i npv /\ priced cx later i up /\ reported s i (fun c => ca_unit c = unit /\ ca_cash c = Some flows) /\ reported_theta s' i (decay up npv (paid eval d (cx_cash cx flows)) unit years).
Proof using Type.
  intros is d s s' CI TY H. cbv zeta. unfold theta_for in H. step H u0 s0 E0. apply set_action_ok in E0. step H g s1 E1. apply get_ok in E1. destruct E1 as [-> ->]. step H years s2 E2. apply total_ok in E2. destruct E2 as [E2 ->]. step H npvs s3 E3. destruct (get_npvs_ok cx _ _ _ E3) as [-> N]; [subst s0; exact CI|]. clear E3.
  step H u4 s4 E4. destruct (move_ok _ _ _ _ E4) as (D4 & R4 & A4). step H ups s5 E5. destruct (get_npvs_ok cx _ _ _ E5) as [-> U]; [rewrite A4; subst s0; exact CI|]. clear E5. step H u6 s6 E6. destruct u6. destruct (move_ok _ _ _ _ H) as (D6 & R6 & A6). subst s0. cbn [st_market st_results st_action] in *. rewrite A4 in U. set (eval := w_date (mk_world (st_market s))) in *.
  set (P := theta_only (fun i => In i is)).
  assert (J : st_market s6 = st_market s4 /\ only P s4 s6 /\ forall i, In i is -> exists npv up unit flows, priced cx (st_market s) i npv /\ priced cx (st_market s4) i up /\ reported s4 i (fun c => ca_unit c = unit /\ ca_cash c = Some flows) /\ reported_theta s6 i (decay up npv (paid eval d (cx_cash cx flows)) unit years)).
  { refine (each_run _ _ _ _ _ E6 (fun pre t => st_market t = st_market s4 /\ only P s4 t /\ forall i, In i pre -> exists npv up unit flows, priced cx (st_market s) i npv /\ priced cx (st_market s4) i up /\ reported s4 i (fun c => ca_unit c = unit /\ ca_cash c = Some flows) /\ reported_theta t i (decay up npv (paid eval d (cx_cash cx flows)) unit years)) _ _); [split; [reflexivity|]; split; [apply only_refl|intros ? []]|].
    intros pre i post t t' L (MT & OT & JT) ST. assert (II : In i is) by (rewrite L; apply in_or_app; right; left; reflexivity). unfold store_theta in ST. destruct (has String.eqb (type_name i) ["Stock"; "Cash"]%string) eqn:TI; [exfalso; apply (TY i II); apply (has_in _ _ string_decides); exact TI|].
    step ST c t1 F1. apply result_ok in F1. destruct F1 as [F1 ->]. step ST npv t2 F2. apply need_ok in F2. destruct F2 as [F2 ->]. step ST up t3 F3. apply need_ok in F3. destruct F3 as [F3 ->]. step ST flows t4 F4. apply need_ok in F4. destruct F4 as [F4 ->]. pose proof ST as ST'.
    apply edit_ok in ST. destruct ST as (c' & C' & ->). assert (c' = c) by congruence. subst c'. cbn [st_market st_results]. split; [exact MT|].
    assert (O' : only P t (State (st_market t) (put (st_results t) (code i) (set_theta (gmul (gdiv (gdiv (gmul (gadd (gsub up npv) (cash_between eval d (cx_cash cx flows))) (ca_unit c)) years) (gof_Z 365)) (gof_Z 1)) c)) (st_action t))).
    { refine (only_edit _ _ _ _ _ ST' (fun c => eq_refl) _). intros c0 x NP. apply set_theta_else. intros ->. apply NP. split; [reflexivity|]. exists i. auto. }
    split; [exact (only_trans _ _ _ _ OT O')|]. intros j Jn. destruct (string_dec (code j) (code i)) as [Q|Q].
    - assert (j = i) by (apply CI; [|exact II|exact Q]; apply in_app_or in Jn; destruct Jn as [Jn|[<-|[]]]; [rewrite L; apply in_or_app; left; exact Jn|exact II]). subst j. destruct (N i II) as (x & X1 & X2). destruct (U i II) as (y & Y1 & Y2). assert (x = npv) by congruence. assert (y = up) by congruence. subst x y.
      exists npv, up, (ca_unit c), flows. split; [exact X1|]. split; [exact Y1|]. split.
      + destruct (only_back _ _ _ _ _ OT F1) as (c0 & C0 & U0 & S0). exists c0. split; [exact C0|]. split; [congruence|]. rewrite <- F4. symmetry. apply (S0 CashCell). intros [K _]. discriminate K.
      + exists (set_theta (gmul (gdiv (gdiv (gmul (gadd (gsub up npv) (cash_between eval d (cx_cash cx flows))) (ca_unit c)) years) (gof_Z 365)) (gof_Z 1)) c). split; [apply put_same|]. rewrite <- paid_ok. reflexivity.
    - apply in_app_or in Jn. destruct Jn as [Jn|[<-|[]]]; [|contradiction Q; reflexivity]. destruct (JT j Jn) as (n1 & u1 & un & fl & P1 & P2 & P3 & (cj & CJ & TJ)). exists n1, u1, un, fl. split; [exact P1|]. split; [exact P2|]. split; [exact P3|]. exists cj. split; [|exact TJ]. cbn [st_results]. rewrite put_other by exact Q. exact CJ. }
  destruct J as (J1 & J2 & J3). split.
  - refine (only_trans _ _ s4 _ (only_results _ _ _ R4) _). exact (only_trans _ _ s6 _ J2 (only_results _ _ _ R6)).
  - exists (st_market s4), years. split; [exact D4|]. split; [rewrite <- J1; exact D6|]. split; [exact E2|]. intros i I. destruct (J3 i I) as (npv & up & un & fl & P1 & P2 & (c & C1 & C2) & (ct & C3 & C4)). exists npv, up, un, fl. split; [exact P1|]. split; [exact P2|]. split; [exists c; split; [rewrite <- C1, R4; reflexivity|exact C2]|]. exists ct. split; [rewrite R6; exact C3|exact C4].
Qed.
Lemma preprocess_theta_ok : forall s s', preprocess_theta cx s = Ret (ROk tt, s') -> st_market s' = st_market s /\ only (theta_only (fun i => In i (cx_insts cx) /\ In (type_name i) ["Cash"; "Stock"]%string)) s s' /\
  forall i, In i (cx_insts cx) -> In (type_name i) ["Cash"; "Stock"]%string -> reported_theta s' i (gof_Z 0).
Proof using Type.
  intros s s' H. unfold preprocess_theta in H. destruct (c171_types (cx_insts cx) ["Cash"; "Stock"]%string) as [_ T]. set (is := with_types (cx_insts cx) ["Cash"; "Stock"]%string) in *.
  assert (J : st_market s' = st_market s /\ only (theta_only (fun i => In i (cx_insts cx) /\ In (type_name i) ["Cash"; "Stock"]%string)) s s' /\ forall i, In i is -> reported_theta s' i (gof_Z 0)).
  { refine (each_run _ _ _ _ _ H (fun pre t => st_market t = st_market s /\ only (theta_only (fun i => In i (cx_insts cx) /\ In (type_name i) ["Cash"; "Stock"]%string)) s t /\ forall i, In i pre -> reported_theta t i (gof_Z 0)) _ _); [split; [reflexivity|]; split; [apply only_refl|intros ? []]|].
    intros pre i post t t' L (MT & OT & JT) ST. assert (II : In i is) by (rewrite L; apply in_or_app; right; left; reflexivity). pose proof ST as ST'. apply edit_ok in ST. destruct ST as (c & C & E). split; [subst t'; exact MT|]. split.
    - refine (only_trans _ _ t _ OT _). refine (only_edit _ _ _ _ _ ST' (fun c => eq_refl) _). intros c0 x NP. apply set_theta_else. intros ->. apply NP. split; [reflexivity|]. exists i. split; [exact (proj1 (T i) II)|reflexivity].
    - subst t'. intros j Jn. destruct (string_dec (code j) (code i)) as [Q|Q].
      + eexists. cbn [st_results]. rewrite Q. split; [apply put_same|reflexivity].
      + apply in_app_or in Jn. destruct Jn as [Jn|[<-|[]]]; [|contradiction Q; reflexivity]. destruct (JT j Jn) as (cj & CJ & TJ). exists cj. split; [|exact TJ]. cbn [st_results]. rewrite put_other by exact Q. exact CJ. }
  destruct J as (J1 & J2 & J3). split; [exact J1|]. split; [exact J2|]. intros i I TI. apply J3. apply T. auto.
Qed.
End Theta.

(** what counts for theta: all but cash and stock; those that mature until [d] and
    the others *)
Definition counted (cx : context) (i : instrument) : Prop := In i (cx_insts cx) /\ ~ In (type_name i) ["Cash"; "Stock"]%string.
Definition near (cx : context) (d : odt) (i : instrument) : Prop := counted cx i /\ exists m, maturity i = Some m /\ instant m <= instant d.
Definition far (cx : context) (d : odt) (i : instrument) : Prop := counted cx i /\ forall m, maturity i = Some m -> instant d < instant m.
Definition first_maturity (U : instrument -> Prop) (e : odt) : Prop := (exists i, U i /\ maturity i = Some e) /\ forall i m, U i -> maturity i = Some m -> instant e <= instant m.

(** C192: cash and stock have no theta.  The instruments that mature within
    [theta_day] days are priced again on the first of their maturities, the others
    [theta_day] days later: the change of the price and the cash flows until then,
    for a day; after each the date is put back.  Nothing else in the reports changes *)
Theorem c192_theta : forall cx s s', coded (cx_insts cx) -> runs (set_thetas cx) s s' -> let eval := w_date (mk_world (st_market s)) in
  exists d, add_days eval (cf_theta_day (cx_config cx)) = Ret d /\ (forall i, In i (cx_insts cx) -> In (type_name i) ["Cash"; "Stock"]%string -> reported_theta s' i (gof_Z 0)) /\
  only (fun c x => x = ThetaCell /\ exists i, In i (cx_insts cx) /\ c = code i) s s' /\
  exists e m, ((exists i, near cx d i) -> first_maturity (near cx d) e) /\ ((forall i, ~ near cx d i) -> m = st_market s) /\ theta_round cx s s' eval e (near cx d) (st_market s) m /\ theta_round cx s s' eval d (far cx d) m (st_market s').
Proof.
  intros cx s s' CI H eval. unfold runs, set_thetas in H. step H u0 s0 E0. destruct u0. destruct (preprocess_theta_ok cx s s0 E0) as (M0 & O0 & T0). step H g s1 E1. apply get_ok in E1. destruct E1 as [-> ->]. rewrite M0 in H. fold eval in H. step H d s2 E2. apply total_ok in E2. destruct E2 as [E2 ->]. exists d. split; [exact E2|].
  destruct (c171_upto (cx_insts cx) d ["Cash"; "Stock"]%string) as [_ TN]. destruct (c171_over (cx_insts cx) d ["Cash"; "Stock"]%string) as [_ TF]. set (nl := maturing_upto (cx_insts cx) d ["Cash"; "Stock"]%string) in *. set (fl := maturing_over (cx_insts cx) d ["Cash"; "Stock"]%string) in *.
  assert (IN : forall i, In i nl <-> near cx d i) by (intro i; rewrite TN; unfold near, counted; tauto). assert (IF : forall i, In i fl <-> far cx d i) by (intro i; rewrite TF; unfold far, counted; tauto). clearbody nl fl. clear TN TF.
  assert (DJ : forall i j, near cx d i -> far cx d j -> code j <> code i). { intros i j [[I1 _] (m & Mi & Li)] [[J1 _] Fj] Q. assert (j = i) by (apply CI; assumption). subst j. specialize (Fj m Mi). lia. }
  assert (NT : forall i, counted cx i -> ~ In (type_name i) ["Stock"; "Cash"]%string) by (intros i [_ N] Q; apply N; cbn in *; tauto).
  step H u3 s3 E3. destruct u3.
  assert (R1 : only (theta_only (near cx d)) s0 s3 /\ w_date (mk_world (st_market s3)) = eval /\ exists e, ((exists i, near cx d i) -> first_maturity (near cx d) e) /\ ((forall i, ~ near cx d i) -> st_market s3 = st_market s0) /\ theta_round cx s0 s3 eval e (near cx d) (st_market s0) (st_market s3)).
  { destruct nl as [|i0 nl'] eqn:NL.
    - apply done_ok in E3. destruct E3 as [_ ->]. split; [apply only_refl|]. split; [rewrite M0; reflexivity|]. exists d. assert (N : forall i, ~ near cx d i) by (intros i Q; apply (IN i); exact Q). split; [intros [i Q]; contradiction (N i Q)|]. split; [reflexivity|]. left. auto.
    - rewrite <- NL in *. assert (I0 : In i0 nl) by (rewrite NL; left; reflexivity). clear NL. destruct (shortest_maturity nl) as [e|] eqn:SM; [|apply total_ok in E3; destruct E3 as [E3 _]; discriminate E3]. pose proof (c172_shortest nl) as C. rewrite SM in C. destruct C as [(i & Ii & Mi) Le].
      destruct (theta_for_ok cx nl e s0 s3) as [O (later & years & D1 & D2 & Y & Q)]; [apply (coded_sub (cx_insts cx)); [exact CI|intros j J; apply IN in J; exact (proj1 (proj1 J))]|intros j J; apply NT; apply IN in J; exact (proj1 J)|exact E3|]. rewrite M0 in D1, D2, Y, Q. fold eval in D2, Y, Q.
      split; [apply (only_weaken (theta_only (fun i => In i nl))); [intros c x (-> & j & J & ->); split; [reflexivity|]; exists j; split; [apply IN; exact J|reflexivity]|exact O]|]. split; [destruct D2 as [D2 _]; exact (proj1 (c129_set_date _ _ _ D2))|].
      exists e. split; [intros _; split; [exists i; split; [apply IN; exact Ii|exact Mi]|intros j m J Mj; apply (Le j); [apply IN; exact J|exact Mj]]|]. split; [intro NN; contradiction (NN i); apply IN; exact Ii|]. right. exists later, years. rewrite M0. do 3 (split; [assumption|]). intros j J. apply IN in J. exact (Q j J). }
  destruct R1 as (O3 & W3 & e & FM & NM & R1).
  assert (R2 : only (theta_only (far cx d)) s3 s' /\ theta_round cx s3 s' eval d (far cx d) (st_market s3) (st_market s')).
  { destruct fl as [|i0 fl'] eqn:FL.
    - apply done_ok in H. destruct H as [_ ->]. split; [apply only_refl|]. left. split; [intros i Q; apply (IF i); exact Q|reflexivity].
    - rewrite <- FL in *. clear FL. destruct (theta_for_ok cx fl d s3 s') as [O (later & years & D1 & D2 & Y & Q)]; [apply (coded_sub (cx_insts cx)); [exact CI|intros j J; apply IF in J; exact (proj1 (proj1 J))]|intros j J; apply NT; apply IF in J; exact (proj1 J)|exact H|]. rewrite W3 in D2, Y, Q.
      split; [apply (only_weaken (theta_only (fun i => In i fl))); [intros c x (-> & j & J & ->); split; [reflexivity|]; exists j; split; [apply IF; exact J|reflexivity]|exact O]|]. right. exists later, years. do 3 (split; [assumption|]). intros j J. apply IF in J. exact (Q j J). }
  destruct R2 as [O4 R2].
  assert (KEEP : forall P t t' i v, only (theta_only P) t t' -> (forall j, P j -> code j <> code i) -> reported_theta t i v -> reported_theta t' i v).
  { intros P t t' i v O N (c & C1 & C2). destruct (only_reads _ _ _ _ _ O C1) as (c' & C1' & _ & S). exists c'. split; [exact C1'|]. rewrite <- C2. apply (S ThetaCell). intros (_ & j & J & Q). apply (N j J). symmetry. exact Q. }
  assert (PAST : forall P t t' i (un : f32) fs, only (theta_only P) t t' -> reported t' i (fun c => ca_unit c = un /\ ca_cash c = Some fs) -> reported t i (fun c => ca_unit c = un /\ ca_cash c = Some fs)).
  { intros P t t' i un fs O (c & C1 & C2 & C3). destruct (only_back _ _ _ _ _ O C1) as (c' & C1' & U & S). exists c'. split; [exact C1'|]. split; [congruence|]. rewrite <- C3. symmetry. apply (S CashCell). intros [K _]. discriminate K. }
  assert (OI : forall U : instrument -> Prop, (forall i, U i -> In i (cx_insts cx)) -> forall a b, only (theta_only U) a b -> only (fun c x => x = ThetaCell /\ exists i, In i (cx_insts cx) /\ c = code i) a b). { intros U UI a b. apply only_weaken. intros c x (-> & i & I & ->). split; [reflexivity|]. exists i. auto. }
  split; [|split].
  - intros i I TI. apply (KEEP _ _ _ _ _ O4); [intros j [[J1 J2] _] Q; assert (j = i) by (apply CI; assumption); subst j; contradiction|]. apply (KEEP _ _ _ _ _ O3); [intros j [[J1 J2] _] Q; assert (j = i) by (apply CI; assumption); subst j; contradiction|]. exact (T0 i I TI).
  - refine (only_trans _ _ s0 _ (OI _ (fun i Q => proj1 Q) _ _ O0) _). exact (only_trans _ _ s3 _ (OI _ (fun i Q => proj1 (proj1 Q)) _ _ O3) (OI _ (fun i Q => proj1 (proj1 Q)) _ _ O4)).
  - exists e, (st_market s3). split; [exact FM|]. split; [rewrite <- M0; exact NM|]. split.
    + rewrite <- M0. destruct R1 as [R1|(later & years & D1 & D2 & Y & Q)]; [left; exact R1|right]. exists later, years. do 3 (split; [assumption|]). intros i I. destruct (Q i I) as (npv & up & un & fs & P1 & P2 & P3 & P4). exists npv, up, un, fs. split; [exact P1|]. split; [exact P2|]. split; [exact (PAST _ _ _ _ _ _ O0 P3)|].
      apply (KEEP _ _ _ _ _ O4); [intros j J; exact (DJ i j I J)|exact P4].
    + destruct R2 as [R2|(later & years & D1 & D2 & Y & Q)]; [left; exact R2|right]. exists later, years. do 3 (split; [assumption|]). intros i I. destruct (Q i I) as (npv & up & un & fs & P1 & P2 & P3 & P4). exists npv, up, un, fs. split; [exact P1|]. split; [exact P2|]. split; [exact (PAST _ _ _ _ _ _ O0 (PAST _ _ _ _ _ _ O3 P3))|exact P4].
Qed.

(** in a whole calculation; the prices must have been asked for, they come with the
    cash flows *)
Definition after_thetas (cx : context) : act unit :=
  let c := cx_config cx in
  let* _ := whenever (cf_vega c) (set_vega cx) in
  let* _ := whenever (cf_rho c) (set_rho cx) in
  let* _ := whenever (cf_div c) (set_div_delta cx) in
  let* _ := whenever (cf_vega_structure c) (set_vega_structure cx) in
  let* _ := whenever (cf_rho_structure c) (set_rho_structure cx) in
  let* _ := whenever (cf_div_structure c) (set_div_structure cx) in
  whenever (cf_vega_matrix c) (set_vega_matrix cx).
Lemma keeps_after_thetas : forall cx, keeps (fun x => x <> ThetaCell) (after_thetas cx).
Proof.
  intro cx. unfold after_thetas. repeat (apply keeps_andthen; [apply keeps_whenever|intros _]); [| | | | | |apply keeps_whenever].
  - apply (keeps_more _ (greek_cell Vega)); [intros x H ->; exact H|apply keeps_vega].
  - apply (keeps_more _ (greek_cell Rho)); [intros x H ->; exact H|apply keeps_rho].
  - apply (keeps_more _ (greek_cell DivDelta)); [intros x H ->; exact H|apply keeps_div].
  - apply (keeps_more _ (ladder_cell VegaLadder)); [intros x H ->; exact H|apply keeps_vega_structure].
  - apply (keeps_more _ (ladder_cell RhoLadder)); [intros x H ->; exact H|apply keeps_rho_structure].
  - apply (keeps_more _ (ladder_cell DivLadder)); [intros x H ->; exact H|apply keeps_div_structure].
  - apply (keeps_more _ matrix_cell); [intros x H ->; exact H|apply keeps_matrix].
Qed.
Theorem c192_calculated : forall cx s s', cf_theta (cx_config cx) = true -> runs (calculate cx) s s' -> exists s1 s2, runs (set_thetas cx) s1 s2 /\ forall i v, reported_theta s2 i v -> reported_theta s' i v.
Proof.
  intros cx s s' C H. unfold runs, calculate in H. do 3 (step H u0 s0 E0; destruct u0; clear E0 s; rename s0 into s). step H u0 s2 E2. destruct u0. rewrite C in E2. exists s, s2. split; [exact E2|]. intros i v (c & C1 & C2).
  assert (O : only (fun _ x => x <> ThetaCell) s2 s') by exact (keeps_after_thetas cx s2 _ s' H). destruct (only_reads _ _ _ _ _ O C1) as (c' & C1' & _ & S). exists c'. split; [exact C1'|]. rewrite <- C2. apply (S ThetaCell). intro Q. apply Q. reflexivity.
Qed.
(** without the prices there are no cash flows and theta is an error *)
Lemma fresh_cash : forall m is s k c, with_instruments m is = ROk s -> st_results s k = Some c -> ca_cash c = None.
Proof.
  intros m is s k c H. unfold with_instruments in H. destruct is as [|i0 is0]; [discriminate H|]. destruct (all_currencies (i0 :: is0)); [|discriminate H]. destruct (maturing_upto _ _ _); [|discriminate H]. injection H as <-. cbn [st_results].
  assert (G : forall is r, (forall c, r k = Some c -> ca_cash c = None) -> fold_left (fun r i => put r (code i) (calc_new (notional i))) is r k = Some c -> ca_cash c = None).
  { clear. induction is as [|i is IH]; intros r R H; [exact (R c H)|]. cbn [fold_left] in H. refine (IH _ _ H). intros c0 Q. unfold put in Q. destruct (String.eqb k (code i)); [|exact (R c0 Q)]. apply some_inj in Q. subst c0. reflexivity. }
  apply (G (i0 :: is0) (fun _ => None)). intros c0 Q. discriminate Q.
Qed.
Theorem c192_without_prices : forall cx m s s' i, with_instruments m (cx_insts cx) = ROk s -> coded (cx_insts cx) -> counted cx i -> cf_npv (cx_config cx) = false -> cf_theta (cx_config cx) = true -> ~ runs (calculate cx) s s'.
Proof.
  intros cx m s s' i W CI CN NP TH H. unfold runs, calculate in H. rewrite NP, TH in H. step H u0 s0 E0. apply done_ok in E0. destruct E0 as [_ ->]. step H u1 s1 E1. step H u2 s2 E2. step H u3 s3 E3. destruct u3. clear H.
  assert (O : only (fun _ x => x <> CashCell) s s2).
  { refine (only_trans _ _ s1 _ _ _).
    - refine (keeps_more _ (eq FxCell) _ _ _ _ s _ s1 E1); [intros x <-; discriminate|apply keeps_whenever; apply keeps_fx].
    - refine (keeps_more _ delta_cell _ _ _ _ s1 _ s2 E2); [intros x Q ->; exact Q|apply keeps_whenever; apply keeps_andthen; [apply keeps_preprocess|intros _; apply keeps_delta]]. }
  destruct (c192_theta cx s2 s3 CI E3) as (d & _ & _ & _ & e & m1 & _ & _ & R1 & R2). assert (NF : near cx d i \/ far cx d i).
  { destruct (maturity i) as [x|] eqn:M; [|right; split; [exact CN|]; intros x Q; congruence]. destruct (Z.le_gt_cases (instant x) (instant d)); [left; split; [exact CN|eauto]|right; split; [exact CN|]]. intros y Q. assert (y = x) by congruence. subst y. lia. }
  assert (G : forall un fs, ~ reported s2 i (fun c => ca_unit c = un /\ ca_cash c = Some fs)).
  { intros un fs (c & C1 & _ & C2). destruct (only_back _ _ _ _ _ O C1) as (c0 & C0 & _ & S). pose proof (fresh_cash _ _ _ _ _ W C0) as F. assert (Q : ca_cash c = ca_cash c0) by (apply (S CashCell); intro Q; apply Q; reflexivity). congruence. }
  destruct NF as [NF|NF].
  - destruct R1 as [[R1 _]|(later & years & _ & _ & _ & R1)]; [exact (R1 i NF)|]. destruct (R1 i NF) as (npv & up & un & fs & _ & _ & Q & _). exact (G un fs Q).
  - destruct R2 as [[R2 _]|(later & years & _ & _ & _ & R2)]; [exact (R2 i NF)|]. destruct (R2 i NF) as (npv & up & un & fs & _ & _ & Q & _). exact (G un fs Q).
Qed.

(** ** Example: an option of next year, one of tomorrow, a stock and a dividend of 16
    the day after tomorrow; the options are worth the stock.  2024 has 366 days, so 16
    of 64 in two days are not 512 but 513.4 a day *)
Definition ex_big_div : dividend := got (dividend_new (ex_day 19797) (VectorData [gof_Z 16] (Some [ex_day 19799]) [] None) (gof_Z 100)) ex_div0.
Definition ex_theta_mkt : market := Market (World (ex_day 19797) [MarketPrice (gof_Z 100) (ex_day 19797) (Some 0%nat)] [ex_big_div] [0%nat] [0%nat]) (fun u => if String.eqb u "a" then Some 0%nat else None) (fun u => if String.eqb u "a" then Some 0%nat else None) (fun _ => None) (fun _ => None).
Definition ex_spot (m : market) : outcome (rresult f32) := match equity m "a" with Some p => Ret (ROk (mp_value p)) | None => Ret RErr end.
Definition ex_spot_pricer : pricer := Pricer (fun m _ => ex_spot m) (fun m _ => let? x := ex_spot m in Ret (ROk (result_of_npv x))) own_fx.
Definition ex_stock_a : instrument := Inst "stock" "S1" Ccy_KRW (gof_Z 1) (ex_day 0) (KStock "a").
Definition ex_tomorrow : instrument := Inst "option" "O2" Ccy_KRW (gof_Z 64) (ex_day 19798) (KOption Call "a" Ccy_KRW false None).
Definition ex_theta_config : config := Config true false false false false false false true false false false false tiny_bump tiny_bump tiny_bump tiny_bump tiny_bump tiny_bump tiny_bump 2 [] [] [] [].
Definition ex_theta_cx : context := Context [ex_opt "O1" 64; ex_tomorrow; ex_stock_a] (fun _ => Some ex_spot_pricer) (cx_match ex_full_cx) ex_theta_config ["O1"; "O2"; "S1"]%string [] (fun l => l) (fun l => l) (fun x => x).
Definition ex_theta_start : state := match with_instruments ex_theta_mkt (cx_insts ex_theta_cx) with ROk s => s | RErr => State ex_theta_mkt (fun _ => None) [] end.
Definition theta_in (s : state) (k : string) (lo hi : Z) : bool := match st_results s k with Some c => match ca_theta c with Some v => gle (gof_Z lo) v && gle v (gof_Z hi) | None => false end | None => false end.
Definition thetas_check (s : state) : bool := theta_in s "O1" (-514) (-513) && theta_in s "O2" 0 0 && theta_in s "S1" 0 0 && match equity (st_market s) "a" with Some p => negb (geq (mp_value p) (gof_Z 100)) | None => false end.
Example c192_hypotheses_met : exists s s' d, with_instruments ex_theta_mkt (cx_insts ex_theta_cx) = ROk s /\ coded (cx_insts ex_theta_cx) /\ runs (calculate ex_theta_cx) s s' /\ add_days (ex_day 19797) 2 = Ret d /\ far ex_theta_cx d (ex_opt "O1" 64) /\ near ex_theta_cx d ex_tomorrow /\ thetas_check s' = true.
Proof.
  exists ex_theta_start. destruct (ends_well_ok (calculate ex_theta_cx ex_theta_start) thetas_check) as (s' & R & T); [vm_compute; reflexivity|]. exists s', (ex_day 19799). split; [reflexivity|]. split; [apply coded_nodup; cbn; repeat constructor; cbn; intuition discriminate|]. split; [exact R|]. split; [reflexivity|]. split; [|split; [|exact T]].
  - split; [split; [left; reflexivity|cbn; intuition discriminate]|]. intros m Q. apply some_inj in Q. subst m. apply Z.ltb_lt. reflexivity.
  - split; [split; [right; left; reflexivity|cbn; intuition discriminate]|]. eexists. split; [reflexivity|]. apply Z.leb_le. reflexivity.
Qed.
(** the price of the stock is not that from before the calculation: 100 times
    [1 - y] divided by [1 - y] is not 100 *)
Theorem c192_restored_refuted : ~ forall cx m s s' u p p', with_instruments m (cx_insts cx) = ROk s -> runs (calculate cx) s s' -> equity m u = Some p -> equity (st_market s') u = Some p' -> geq (mp_value p') (mp_value p) = true.
Proof.
  intro H. destruct (ends_well_ok (calculate ex_theta_cx ex_theta_start) thetas_check) as (s' & R & T); [vm_compute; reflexivity|]. apply andb_prop in T. destruct T as [_ T]. destruct (equity (st_market s') "a") as [p'|] eqn:E; [|discriminate T].
  pose proof (H ex_theta_cx ex_theta_mkt ex_theta_start s' "a"%string (MarketPrice (gof_Z 100) (ex_day 19797) (Some 0%nat)) p' eq_refl R eq_refl E) as Q. cbn [mp_value] in Q. rewrite Q in T. discriminate T.
Qed.
(** theta is said to be for one day, and is divided by 365 also in a year of 366
    days: a fall from 100 to 84 in two days, for 64 units, is 512 a day *)
Theorem c192_per_day_refuted : exists years, get_time_difference (ex_day 19797) (ex_day 19799) = Ret years /\ gle (decay (gof_Z 84) (gof_Z 100) (gof_Z 0) (gof_Z 64) years) (gof_Z (-513)) = true.
Proof.
  assert (B : match get_time_difference (ex_day 19797) (ex_day 19799) with Ret years => gle (decay (gof_Z 84) (gof_Z 100) (gof_Z 0) (gof_Z 64) years) (gof_Z (-513)) | _ => false end = true) by (vm_compute; reflexivity).
  destruct (get_time_difference (ex_day 19797) (ex_day 19799)) as [years| |]; [|discriminate B|discriminate B]. exists years. split; [reflexivity|exact B].
Qed.

Print Assumptions c192_theta.
Print Assumptions c192_calculated.
Print Assumptions c192_without_prices.
Print Assumptions c192_restored_refuted.
Print Assumptions c192_per_day_refuted.
