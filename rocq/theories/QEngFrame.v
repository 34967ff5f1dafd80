(** QEngFrame.v -- what each stage of the engine leaves alone, and the stage of the
    prices. *)
From Coq Require Import ZArith Arith Ascii String.
From Coq Require Import List Bool Lia.
From Flocq Require Import Core IEEE754.BinarySingleNaN.
From Verif Require Import Base FloatModel KrxModel QDateModel QYearModel QPeriodModel QFindModel QInterpModel QDivModel QCurveModel QMoneyModel QBondModel QSwapModel QFutModel QInstModel QInstSpec QInstProps QMatchProps QVolModel QEngModel QEngSpec QEngProofs.
Import ListNotations.
Open Scope Z_scope.

(** ** What each stage leaves alone, whether or not it succeeds *)
Definition keeps {A} (P : cell -> Prop) (a : act A) : Prop := forall s r s', a s = Ret (r, s') -> only (fun _ x => P x) s s'.
Lemma keeps_done : forall P A (x : A), keeps P (done x).
Proof. intros P A x s r s' H. injection H as _ <-. apply only_refl. Qed.
Lemma keeps_fail : forall P A, keeps P (@fail A).
Proof. intros P A s r s' H. injection H as _ <-. apply only_refl. Qed.
Lemma keeps_andthen : forall P A B (a : act A) (f : A -> act B), keeps P a -> (forall x, keeps P (f x)) -> keeps P (andthen a f).
Proof.
  intros P A B a f K1 K2 s r s' H. unfold andthen in H. destruct (a s) as [[[x|] s1]| |] eqn:E; [| |discriminate H|discriminate H].
  - exact (only_trans _ _ _ _ (K1 _ _ _ E) (K2 x _ _ _ H)).
  - injection H as _ <-. exact (K1 _ _ _ E).
Qed.
Lemma keeps_need : forall P A (o : option A), keeps P (need o).
Proof. intros P A [x|]; [apply keeps_done|apply keeps_fail]. Qed.
Lemma keeps_pure : forall P A (o : outcome (rresult A)), keeps P (pure o).
Proof. intros P A o s r s' H. unfold pure in H. destruct o; [|discriminate H|discriminate H]. injection H as _ <-. apply only_refl. Qed.
Lemma keeps_total : forall P A (o : outcome A), keeps P (total o).
Proof. intros P A o s r s' H. unfold total in H. destruct o; [|discriminate H|discriminate H]. injection H as _ <-. apply only_refl. Qed.
Lemma keeps_get : forall P, keeps P get_state.
Proof. intros P s r s' H. injection H as _ <-. apply only_refl. Qed.
Lemma keeps_set_market : forall P m, keeps P (set_market m).
Proof. intros P m s r s' H. injection H as _ <-. apply only_results. reflexivity. Qed.
Lemma keeps_set_action : forall P is, keeps P (set_action is).
Proof. intros P m s r s' H. injection H as _ <-. apply only_results. reflexivity. Qed.
Lemma keeps_result : forall P k, keeps P (result_of k).
Proof. intros P k s r s' H. unfold result_of in H. destruct (st_results s k); injection H as _ <-; apply only_refl. Qed.
Lemma keeps_npv_of : forall P k, keeps P (npv_of k).
Proof. intros P k. apply keeps_andthen; [apply keeps_result|]. intro c. apply keeps_andthen; [apply keeps_need|]. intro. apply keeps_done. Qed.
Lemma keeps_edit : forall (P : cell -> Prop) k f, (forall c, ca_unit (f c) = ca_unit c) -> (forall c x, ~ P x -> same_at c (f c) x) -> keeps P (edit k f).
Proof.
  intros P k f F1 F2 s r s' H. destruct r as [[]|].
  - apply (only_edit k f s s' _ H F1). exact F2.
  - unfold edit in H. destruct (st_results s k); [discriminate H|]. injection H as <-. apply only_refl.
Qed.
Lemma keeps_greek_edit : forall (P : cell -> Prop) k g j v, P (GreekCell g j) -> keeps P (edit k (set_greek g j v)).
Proof. intros P k g j v Y. apply keeps_edit; [reflexivity|]. intros c x N. apply set_greek_else. intros ->. exact (N Y). Qed.
Lemma keeps_ladder_edit : forall (P : cell -> Prop) k g j v, P (LadderCell g j) -> keeps P (edit k (set_ladder g j v)).
Proof. intros P k g j v Y. apply keeps_edit; [reflexivity|]. intros c x N. apply set_ladder_else. intros ->. exact (N Y). Qed.
Lemma keeps_matrix_edit : forall (P : cell -> Prop) k j v, P (MatrixCell j) -> keeps P (edit k (set_matrix j v)).
Proof. intros P k j v Y. apply keeps_edit; [reflexivity|]. intros c x N. destruct x as [| | | | |j'| |]; try reflexivity. cbn. apply put_other. intros ->. exact (N Y). Qed.
Lemma keeps_theta_edit : forall (P : cell -> Prop) k v, P ThetaCell -> keeps P (edit k (set_theta v)).
Proof. intros P k v Y. apply keeps_edit; [reflexivity|]. intros c x N. destruct x; try reflexivity. contradiction (N Y). Qed.
Lemma keeps_fx_edit : forall (P : cell -> Prop) k v, P FxCell -> keeps P (edit k (set_fx v)).
Proof. intros P k v Y. apply keeps_edit; [reflexivity|]. intros c x N. destruct x; try reflexivity. contradiction (N Y). Qed.
Lemma keeps_each : forall P A (f : A -> act unit) l, (forall x, keeps P (f x)) -> keeps P (each f l).
Proof. intros P A f l K. induction l as [|x l IH]; cbn [each]; [apply keeps_done|]. apply keeps_andthen; [apply K|]. intros _. exact IH. Qed.
Lemma keeps_npvs : forall P cx, keeps P (get_npvs cx).
Proof. intros. apply keeps_andthen; [apply keeps_get|]. intro. apply keeps_pure. Qed.
Lemma keeps_more : forall A (P Q : cell -> Prop) (a : act A), (forall x, P x -> Q x) -> keeps P a -> keeps Q a.
Proof. intros A P Q a S K s r s' H. apply (only_weaken (fun _ => P)); [intros _; exact S|exact (K s r s' H)]. Qed.
(** the cells of each stage *)
Definition delta_cell (x : cell) : Prop := match x with GreekCell Delta _ | GreekCell Gamma _ => True | _ => False end.
Definition greek_cell (g : greek) (x : cell) : Prop := match x with GreekCell h _ => h = g | _ => False end.
Definition ladder_cell (g : ladder) (x : cell) : Prop := match x with LadderCell h _ => h = g | _ => False end.
Definition matrix_cell (x : cell) : Prop := match x with MatrixCell _ => True | _ => False end.
Ltac keep := repeat first
  [ simple apply keeps_done | simple apply keeps_fail | simple apply keeps_need | simple apply keeps_pure | simple apply keeps_total | simple apply keeps_get | simple apply keeps_set_market | simple apply keeps_set_action | simple apply keeps_result
  | simple apply keeps_npv_of | simple apply keeps_npvs | (simple apply keeps_greek_edit; first [exact I|reflexivity]) | (simple apply keeps_ladder_edit; first [exact I|reflexivity]) | (simple apply keeps_matrix_edit; exact I) | (simple apply keeps_theta_edit; reflexivity)
  | (simple apply keeps_fx_edit; reflexivity) | (simple apply keeps_each; intro) | (simple apply keeps_andthen; [|intro]) | assumption ].
Lemma keeps_bump_curve : forall P cx n a b x, keeps P (bump_curve cx n a b x).
Proof. intros. unfold bump_curve. keep. Qed.
Lemma keeps_bump_vol : forall P n a b l r x, keeps P (bump_vol n a b l r x).
Proof. intros. unfold bump_vol. keep. destruct (env_of _ _ _); keep. destruct x2; keep. Qed.
Lemma keeps_bump_div : forall P u a b x, keeps P (bump_div u a b x).
Proof. intros. unfold bump_div. keep. destruct (mk_dividend _ _); keep. destruct (nth_error _ _); keep. Qed.
Lemma keeps_fx : forall cx, keeps (eq FxCell) (set_fx_exposures cx).
Proof.
  intro cx. unfold set_fx_exposures. keep. generalize (fun _ : string => @None (list (currency * f32))). generalize (st_action x). intro l. induction l as [|i l IH]; intro acc; cbn [exposures]; keep. apply IH.
Qed.
Lemma keeps_delta : forall cx, keeps delta_cell (set_delta_gamma cx).
Proof.
  intro cx. unfold set_delta_gamma. keep. unfold delta_of. keep. destruct (with_underlying _ _ _); keep. unfold store_delta. keep.
Qed.
Lemma keeps_greek : forall cx g sel bump b u k, (forall k b, keeps (greek_cell g) (bump k b)) -> keeps (greek_cell g) (greek_of cx g sel bump b u k).
Proof. intros cx g sel bump b u k K. unfold greek_of. keep. destruct x; keep; [apply K| |apply K]. unfold store_greek. keep. Qed.
Lemma keeps_rho : forall cx, keeps (greek_cell Rho) (set_rho cx).
Proof. intro. unfold set_rho. keep. apply keeps_greek. intros. apply keeps_bump_curve. Qed.
Lemma keeps_vega : forall cx, keeps (greek_cell Vega) (set_vega cx).
Proof. intro. unfold set_vega. keep. apply keeps_greek. intros. apply keeps_bump_vol. Qed.
Lemma keeps_div : forall cx, keeps (greek_cell DivDelta) (set_div_delta cx).
Proof. intro. unfold set_div_delta. keep. apply keeps_greek. intros. apply keeps_bump_div. Qed.
Lemma keeps_rungs : forall P i b u ups is acc, keeps P (rungs i b u ups acc is).
Proof. intros P i b u ups is. induction is as [|x is IH]; intro acc; cbn [rungs]; keep. apply IH. Qed.
Lemma keeps_climb : forall P cx W (bump : option W -> option W -> f32 -> act unit) b u ex is ends i prev acc, (forall a c x, keeps P (bump a c x)) -> keeps P (climb cx bump b u ex is i prev ends acc).
Proof.
  intros P cx W bump b u ex is ends. induction ends as [|[w d] ends IH]; intros i prev acc K; cbn [climb]; keep; [apply K|apply keeps_rungs|apply K|]. destruct (maturing_over _ _ _); keep. apply IH. exact K.
Qed.
Lemma keeps_ladder : forall cx W g sel (bump : string -> option W -> option W -> f32 -> act unit) b u ex ends k, (forall k a c x, keeps (ladder_cell g) (bump k a c x)) -> keeps (ladder_cell g) (ladder_of cx g sel bump b u ex ends k).
Proof. intros cx W g sel bump b u ex ends k K. unfold ladder_of. keep. destruct x; keep. apply keeps_climb. intros. apply K. Qed.
Lemma keeps_rho_structure : forall cx, keeps (ladder_cell RhoLadder) (set_rho_structure cx).
Proof. intro. unfold set_rho_structure. keep. apply keeps_ladder. intros. apply keeps_bump_curve. Qed.
Lemma keeps_div_structure : forall cx, keeps (ladder_cell DivLadder) (set_div_structure cx).
Proof. intro. unfold set_div_structure. keep. apply keeps_ladder. intros. apply keeps_bump_div. Qed.
Lemma keeps_npv_map : forall P is acc, keeps P (npv_map acc is).
Proof. intros P is. induction is as [|i is IH]; intro acc; cbn [npv_map]; keep. apply IH. Qed.
Lemma keeps_vega_rungs : forall P i b ups prevs is acc, keeps P (vega_rungs i b ups prevs acc is).
Proof. intros P i b ups prevs is. induction is as [|x is IH]; intro acc; cbn [vega_rungs]; keep. apply IH. Qed.
Lemma keeps_vega_down : forall cx u b lg times is order prevs acc, keeps (ladder_cell VegaLadder) (vega_down cx u b lg times is order prevs acc).
Proof.
  intros cx u b lg times is order. induction order as [|i order IH]; intros prevs acc; cbn [vega_down]; keep; [apply keeps_bump_vol|]. destruct (skips lg x); [apply IH|]. keep; [apply keeps_vega_rungs|apply IH].
Qed.
Lemma keeps_vega_structure : forall cx, keeps (ladder_cell VegaLadder) (set_vega_structure cx).
Proof. intro. unfold set_vega_structure. keep. unfold vega_structure_of. keep. destruct (with_underlying _ _ _); keep; [apply keeps_npv_map|apply keeps_vega_down|apply keeps_bump_vol]. Qed.
Lemma keeps_cells : forall P i j b ups prevs is acc, keeps P (cells i j b ups prevs acc is).
Proof. intros P i j b ups prevs is. induction is as [|x is IH]; intro acc; cbn [cells]; keep. apply IH. Qed.
Lemma keeps_across : forall cx u b money is hs i st sp order prevs acc, keeps matrix_cell (across cx u b money is hs i st sp order prevs acc).
Proof. intros cx u b money is hs i st sp order. induction order as [|j order IH]; intros prevs acc; cbn [across]; keep; [apply keeps_bump_vol|apply keeps_cells|apply IH]. Qed.
Lemma keeps_matrix_down : forall cx u b lg times money is hs order prevs acc, keeps matrix_cell (matrix_down cx u b lg times money is hs order prevs acc).
Proof. intros cx u b lg times money is hs order. induction order as [|i order IH]; intros prevs acc; cbn [matrix_down]; keep. destruct (skips lg x); [apply IH|]. keep; [apply keeps_across|apply IH]. Qed.
Lemma keeps_matrix : forall cx, keeps matrix_cell (set_vega_matrix cx).
Proof.
  intro. unfold set_vega_matrix. keep. generalize (@nil string) (fun _ : string => @None (list (list f32))). generalize (all_underlyings (cx_insts cx)). intro us. induction us as [|u us IH]; intros hs acc; cbn [matrix_all]; keep.
  destruct (with_underlying _ _ _); [apply IH|]. keep; [apply keeps_npv_map|apply keeps_matrix_down|apply keeps_bump_vol|apply IH].
Qed.
Lemma keeps_move : forall P d, keeps P (move_date d).
Proof. intros. unfold move_date. keep. Qed.
Lemma keeps_theta_for : forall cx is d, keeps (eq ThetaCell) (theta_for cx is d).
Proof. intros. unfold theta_for. keep; [apply keeps_move| |apply keeps_move]. unfold store_theta. destruct (has _ _ _); keep. Qed.
Lemma keeps_thetas : forall cx, keeps (eq ThetaCell) (set_thetas cx).
Proof.
  intro. unfold set_thetas. keep.
  - unfold preprocess_theta. keep.
  - destruct (maturing_upto _ _ _); keep. destruct (shortest_maturity _); keep. apply keeps_theta_for.
  - destruct (maturing_over _ _ _); keep. apply keeps_theta_for.
Qed.
Lemma keeps_whenever : forall P b a, keeps P a -> keeps P (whenever b a).
Proof. intros P [] a K; [exact K|apply keeps_done]. Qed.

Lemma keeps_preprocess : forall cx, keeps delta_cell (preprocess_delta_gamma cx).
Proof. intro. unfold preprocess_delta_gamma. keep. Qed.
(** all of them after the prices *)
Definition after_prices (cx : context) : act unit :=
  let c := cx_config cx in
  let* _ := whenever (cf_fx c) (set_fx_exposures cx) in
  let* _ := whenever (cf_delta c) (let* _ := preprocess_delta_gamma cx in set_delta_gamma cx) in
  let* _ := whenever (cf_theta c) (set_thetas cx) in
  let* _ := whenever (cf_vega c) (set_vega cx) in
  let* _ := whenever (cf_rho c) (set_rho cx) in
  let* _ := whenever (cf_div c) (set_div_delta cx) in
  let* _ := whenever (cf_vega_structure c) (set_vega_structure cx) in
  let* _ := whenever (cf_rho_structure c) (set_rho_structure cx) in
  let* _ := whenever (cf_div_structure c) (set_div_structure cx) in
  whenever (cf_vega_matrix c) (set_vega_matrix cx).
Definition later (x : cell) : Prop := match x with NpvCell | ValueCell | CashCell => False | _ => True end.
Lemma keeps_after : forall cx, keeps later (after_prices cx).
Proof.
  intro cx. unfold after_prices. repeat (apply keeps_andthen; [apply keeps_whenever|intros _]); [| | | | | | | | |apply keeps_whenever].
  - apply (keeps_more _ (eq FxCell)); [intros x <-; exact I|apply keeps_fx].
  - apply (keeps_more _ delta_cell); [intros x H; destruct x; try contradiction H; exact I|]. apply keeps_andthen; [apply keeps_preprocess|intros _; apply keeps_delta].
  - apply (keeps_more _ (eq ThetaCell)); [intros x <-; exact I|apply keeps_thetas].
  - apply (keeps_more _ (greek_cell Vega)); [intros x H; destruct x; try contradiction H; exact I|apply keeps_vega].
  - apply (keeps_more _ (greek_cell Rho)); [intros x H; destruct x; try contradiction H; exact I|apply keeps_rho].
  - apply (keeps_more _ (greek_cell DivDelta)); [intros x H; destruct x; try contradiction H; exact I|apply keeps_div].
  - apply (keeps_more _ (ladder_cell VegaLadder)); [intros x H; destruct x; try contradiction H; exact I|apply keeps_vega_structure].
  - apply (keeps_more _ (ladder_cell RhoLadder)); [intros x H; destruct x; try contradiction H; exact I|apply keeps_rho_structure].
  - apply (keeps_more _ (ladder_cell DivLadder)); [intros x H; destruct x; try contradiction H; exact I|apply keeps_div_structure].
  - apply (keeps_more _ matrix_cell); [intros x H; destruct x; try contradiction H; exact I|apply keeps_matrix].
Qed.
Lemma calculate_split : forall cx, calculate cx = (let* _ := whenever (cf_npv (cx_config cx)) (let* _ := set_npv_results cx in let* _ := set_values cx in set_cashflow_inbetween cx) in after_prices cx).
Proof. reflexivity. Qed.

(** ** The prices *)
Section Stage.
Context (cx : context) (m : market).
(** the npv stage *)
Lemma npv_stage : forall s s', coded (st_action s) -> st_market s = m -> (forall k, In k (cx_keys cx) <-> exists i, In i (st_action s) /\ code i = k) ->
  runs (let* _ := set_npv_results cx in let* _ := set_values cx in set_cashflow_inbetween cx) s s' ->
  st_market s' = m /\ st_action s' = st_action s /\ only (fun _ x => match x with NpvCell | ValueCell | CashCell => True | _ => False end) s s' /\
  forall i, In i (st_action s) -> exists r, priced_result cx m i r /\ reported s' i (fun c => ca_npv c = Some r /\ ca_value c = Some (gmul (nr_npv r) (ca_unit c)) /\ exists fl, expected_coupons (cx_coupons cx) r = ROk fl /\ ca_cash c = Some fl).
Proof using.
  intros s s' C M K H. unfold runs in H. set (P := fun (_ : string) (x : cell) => match x with NpvCell | ValueCell | CashCell => True | _ => False end).
  step H u0 s1 E1. step H u1 s2 E2. destruct u0, u1. unfold set_npv_results in E1. step E1 npvs s0 E0. unfold get_npv_results in E0. step E0 sx sy Ex. apply get_ok in Ex. destruct Ex as [-> ->]. apply pure_ok in E0. destruct E0 as [E0 ->]. rewrite M in E0.
  destruct (results_from_ok cx m _ _ _ E0 C) as [R _].
  assert (A1 : st_market s1 = m /\ st_action s1 = st_action s /\ only P s s1 /\ forall k, In k (cx_keys cx) -> exists c r, st_results s1 k = Some c /\ npvs k = Some r /\ ca_npv c = Some r).
  { refine (each_run _ _ _ _ _ E1 (fun pre t => st_market t = m /\ st_action t = st_action s /\ only P s t /\ forall k, In k pre -> exists c r, st_results t k = Some c /\ npvs k = Some r /\ ca_npv c = Some r) _ _); [repeat split; [exact M|apply only_refl|intros ? []]|].
    intros pre k post t t' _ (T1 & T2 & T3 & T4) ST. step ST r t1 ER. apply need_ok in ER. destruct ER as [ER ->]. pose proof ST as ST'. apply edit_ok in ST'. destruct ST' as (c & EC & ET). subst t'.
    split; [exact T1|]. split; [exact T2|]. split; [eapply only_trans; [exact T3|]; apply (only_edit k (set_npv r) _ _ P ST); [reflexivity|]; intros c0 x N; destruct x; cbn in N; try (exfalso; apply N; exact I); reflexivity|].
    intros j J. cbn [st_results]. destruct (String.eqb_spec j k) as [->|N]; [exists (set_npv r c), r; rewrite put_same; auto|]. rewrite put_other by exact N. apply in_app_or in J. destruct J as [J|[J|[]]]; [exact (T4 j J)|congruence]. }
  destruct A1 as (M1 & S1 & O1 & V1).
  assert (A2 : st_market s2 = m /\ st_action s2 = st_action s /\ only P s s2 /\ (forall k c, st_results s2 k = Some c -> exists c0, st_results s1 k = Some c0 /\ ca_npv c = ca_npv c0) /\ forall k, In k (cx_keys cx) -> exists c r, st_results s2 k = Some c /\ ca_npv c = Some r /\ ca_value c = Some (gmul (nr_npv r) (ca_unit c))).
  { unfold set_values in E2. refine (each_run _ _ _ _ _ E2 (fun pre t => st_market t = m /\ st_action t = st_action s /\ only P s t /\ (forall k c, st_results t k = Some c -> exists c0, st_results s1 k = Some c0 /\ ca_npv c = ca_npv c0) /\ forall k, In k pre -> exists c r, st_results t k = Some c /\ ca_npv c = Some r /\ ca_value c = Some (gmul (nr_npv r) (ca_unit c))) _ _); [split; [exact M1|split; [exact S1|split; [exact O1|split; [intros k c E; exists c; auto|intros ? []]]]]|].
    intros pre k post t t' _ (T1 & T2 & T3 & T4 & T5) ST. step ST c t1 EC. apply result_ok in EC. destruct EC as [EC ->]. step ST c' t1 EV. apply pure_ok in EV. destruct EV as [EV ->]. unfold set_value in EV. destruct (ca_npv c) as [r|] eqn:NR; [|discriminate EV]. injection EV as EV.
    apply edit_ok in ST. destruct ST as (c1 & EC1 & ->). assert (c1 = c) by congruence. subst c1. split; [exact T1|]. split; [exact T2|]. split; [|split].
    - eapply only_trans; [exact T3|]. intro j. cbn [st_results]. destruct (String.eqb_spec j k) as [->|N]; [rewrite put_same, EC|rewrite put_other by exact N; exact (only_refl P t j)]. subst c'. split; [reflexivity|]. intros x N. destruct x; cbn in N; try (exfalso; apply N; exact I); reflexivity.
    - intros j d. cbn [st_results]. destruct (String.eqb_spec j k) as [->|N]; [rewrite put_same|rewrite put_other by exact N; apply T4]. intro Q. apply some_inj in Q. subst d. destruct (T4 k c EC) as (c0 & Z1 & Z2). exists c0. split; [exact Z1|]. subst c'. cbn. congruence.
    - intros j J. cbn [st_results]. destruct (String.eqb_spec j k) as [->|N]; [exists c', r; rewrite put_same; subst c'; auto|]. rewrite put_other by exact N. apply in_app_or in J. destruct J as [J|[J|[]]]; [exact (T5 j J)|congruence]. }
  destruct A2 as (M2 & S2 & O2 & V2 & W2).
  assert (A3 : st_market s' = m /\ st_action s' = st_action s /\ only P s s' /\ (forall k c, st_results s' k = Some c -> exists c0, st_results s2 k = Some c0 /\ ca_npv c = ca_npv c0 /\ ca_value c = ca_value c0 /\ ca_unit c = ca_unit c0) /\
    forall k, In k (cx_keys cx) -> exists c r fl, st_results s' k = Some c /\ ca_npv c = Some r /\ expected_coupons (cx_coupons cx) r = ROk fl /\ ca_cash c = Some fl).
  { unfold set_cashflow_inbetween in H. refine (each_run _ _ _ _ _ H (fun pre t => st_market t = m /\ st_action t = st_action s /\ only P s t /\ (forall k c, st_results t k = Some c -> exists c0, st_results s2 k = Some c0 /\ ca_npv c = ca_npv c0 /\ ca_value c = ca_value c0 /\ ca_unit c = ca_unit c0) /\
      forall k, In k pre -> exists c r fl, st_results t k = Some c /\ ca_npv c = Some r /\ expected_coupons (cx_coupons cx) r = ROk fl /\ ca_cash c = Some fl) _ _); [split; [exact M2|split; [exact S2|split; [exact O2|split; [intros k c E; exists c; auto|intros ? []]]]]|].
    intros pre k post t t' _ (T1 & T2 & T3 & T4 & T5) ST. step ST c t1 EC. apply result_ok in EC. destruct EC as [EC ->]. step ST r t1 ER. apply need_ok in ER. destruct ER as [ER ->]. step ST fl t1 EF. apply pure_ok in EF. destruct EF as [EF ->]. assert (EF' : expected_coupons (cx_coupons cx) r = ROk fl) by congruence.
    pose proof ST as ST'. apply edit_ok in ST'. destruct ST' as (c1 & EC1 & ->). assert (c1 = c) by congruence. subst c1. split; [exact T1|]. split; [exact T2|]. split; [|split].
    - eapply only_trans; [exact T3|]. apply (only_edit k (set_cash fl) _ _ P ST); [reflexivity|]; intros c0 x N; destruct x; cbn in N; try (exfalso; apply N; exact I); reflexivity.
    - intros j d. cbn [st_results]. destruct (String.eqb_spec j k) as [->|N]; [rewrite put_same|rewrite put_other by exact N; apply T4]. intro Q. apply some_inj in Q. subst d. exact (T4 k c EC).
    - intros j J. cbn [st_results]. destruct (String.eqb_spec j k) as [->|N]; [exists (set_cash fl c), r, fl; rewrite put_same; auto|]. rewrite put_other by exact N. apply in_app_or in J. destruct J as [J|[J|[]]]; [exact (T5 j J)|congruence]. }
  destruct A3 as (M3 & S3 & O3 & V3 & W3). split; [exact M3|]. split; [exact S3|]. split; [exact O3|]. intros i I. destruct (R i I) as (r & PR & FR). exists r. split; [exact PR|].
  assert (IK : In (code i) (cx_keys cx)) by (apply K; exists i; auto). destruct (W3 _ IK) as (c & r' & fl & E & NR & EF & CF). destruct (V3 _ _ E) as (c2 & E2' & N2 & L2 & U2). destruct (W2 _ IK) as (c2' & r2 & E2'' & N2' & L2'). assert (c2' = c2) by congruence. subst c2'.
  destruct (V2 _ _ E2') as (c1 & E1' & N1). destruct (V1 _ IK) as (c1' & r1 & E1'' & NP & N1'). assert (c1' = c1) by congruence. subst c1'. assert (r1 = r) by congruence. subst r1. assert (r' = r) by congruence. subst r'. assert (r2 = r) by congruence. subst r2.
  exists c. split; [exact E|]. split; [exact NR|]. split; [congruence|]. exists fl. auto.
Qed.
End Stage.

(** a new engine: one empty report per code *)
Lemma with_instruments_ok : forall m is s, with_instruments m is = ROk s -> is <> [] /\ st_market s = m /\ st_action s = is /\ (forall i x, In i is -> maturity i = Some x -> instant (w_date (mk_world m)) < instant x) /\
  (coded is -> forall i, In i is -> st_results s (code i) = Some (calc_new (notional i))) /\ (forall k, (forall i, In i is -> code i <> k) -> st_results s k = None).
Proof.
  intros m is s H. unfold with_instruments in H. destruct is as [|i0 is0] eqn:IS; [discriminate H|]. rewrite <- IS in *. destruct (all_currencies is); [|discriminate H]. destruct (maturing_upto is (w_date (mk_world m)) []) eqn:MU; [|discriminate H].
  injection H as <-. cbn [st_market st_action st_results]. split; [congruence|]. split; [reflexivity|]. split; [reflexivity|]. split.
  { intros i x I X. destruct (Z.ltb_spec (instant (w_date (mk_world m))) (instant x)); [assumption|]. exfalso. assert (F : In i (maturing_upto is (w_date (mk_world m)) [])). { unfold maturing_upto. apply filter_In. split; [exact I|]. rewrite X. cbn. apply Z.leb_le. assumption. } rewrite MU in F. exact F. }
  clear. set (f := fun r i => put r (code i) (calc_new (notional i))).
  assert (G : forall l (acc : string -> option calc), (forall k, (forall i, In i l -> code i <> k) -> fold_left f l acc k = acc k) /\ (coded l -> forall i, In i l -> fold_left f l acc (code i) = Some (calc_new (notional i)))).
  { induction l as [|x l IH]; intro acc; [split; [reflexivity|intros _ i []]|]. cbn [fold_left]. destruct (IH (f acc x)) as [G1 G2]. split.
    - intros k K. rewrite G1 by (intros i I; apply K; right; exact I). unfold f. apply put_other. intro. subst k. apply (K x); [left; reflexivity|reflexivity].
    - intros C i [<-|I]; [|apply G2; [|exact I]; intros a b A B; apply C; right; assumption].
      destruct (in_dec string_dec (code x) (map code l)) as [J|J].
      + apply in_map_iff in J. destruct J as (j & E & J). assert (j = x) by (apply C; [right; exact J|left; reflexivity|exact E]). subst j. apply G2; [|exact J]. intros a b A B; apply C; right; assumption.
      + rewrite G1; [unfold f; apply put_same|]. intros j Hj E. apply J. rewrite <- E. apply in_map. exact Hj. }
  destruct (G is (fun _ => None)) as [G1 G2]. split; [exact G2|exact G1].
Qed.

