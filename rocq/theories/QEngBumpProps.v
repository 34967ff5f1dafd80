(** QEngBumpProps.v -- C186 to C188: rho, vega and the delta of dividends. *)
From Coq Require Import ZArith Arith Ascii String.
From Coq Require Import List Bool Lia.
From Flocq Require Import Core IEEE754.BinarySingleNaN.
From Verif Require Import Base FloatModel KrxModel QDateModel QYearModel QPeriodModel QFindModel QInterpModel QDivModel QCurveModel QMoneyModel QBondModel QSwapModel QFutModel QInstModel QInstSpec QInstProps QMatchProps QVolModel QEngModel QEngSpec QEngProofs QEngFrame QEngProps QEngDeltaProps QEngBump.
Import ListNotations.
Open Scope Z_scope.

(** ** Who is bumped *)
(** [i] is priced off the curve [n] *)
Definition on_curve (cx : context) (ex : list string) (i : instrument) (n : string) : Prop := In i (cx_insts cx) /\ ~ In (type_name i) ex /\ n <> dummy /\ needs (cx_match cx) i (Some n).
Definition on_underlying (cx : context) (ex : list string) (i : instrument) (u : string) : Prop := In i (cx_insts cx) /\ ~ In (type_name i) ex /\ In u (underlyings i).
Lemma curve_sel : forall cx ex n is, n <> dummy -> using_curve (cx_insts cx) n (cx_match cx) ex = ROk is -> forall i, In i is <-> on_curve cx ex i n.
Proof. intros cx ex n is D E i. pose proof (c173_users (cx_match cx) (cx_insts cx) n ex D) as U. rewrite E in U. destruct U as [_ U]. rewrite (U i). unfold on_curve. tauto. Qed.
Lemma und_sel : forall cx ex u i, In i (with_underlying (cx_insts cx) u ex) <-> on_underlying cx ex i u.
Proof. intros cx ex u i. unfold with_underlying. rewrite filter_In, andb_true_iff, negb_true_iff, (has_in _ _ string_decides), (has_not _ _ string_decides). unfold on_underlying. tauto. Qed.
Lemma used_iff : forall select k is, select k = ROk is -> used select k = true <-> exists i, In i is.
Proof. intros select k is E. unfold used. rewrite E. destruct is as [|i is]; split; intro H; try discriminate; [destruct H as [? []]|exists i; left; reflexivity|reflexivity]. Qed.
Lemma split_nodup : forall A (l pre post : list A) x, NoDup l -> l = pre ++ x :: post -> NoDup pre /\ ~ In x pre.
Proof.
  intros A l pre post x N E. subst l. pose proof (NoDup_remove_2 _ _ _ N) as X. split; [|intro; apply X; apply in_or_app; left; assumption]. clear X. induction pre as [|y pre IH]; [constructor|]. cbn in N. inversion N as [|? ? A1 A2]; subst. constructor; [|apply IH; exact A2]. intro. apply A1. apply in_or_app. left. assumption.
Qed.

(** C186: each instrument's rho in each curve it is priced off is the change of its
    price when that curve alone is bumped, for a basis point, in the market of
    before but for curves already bumped up and down again; so is the market that
    is left; nothing else in the reports changes *)
Theorem c186_rho : forall cx s s', coded (cx_insts cx) -> runs (set_rho cx) s s' -> let b := cf_rho_bump (cx_config cx) in let ex := ["Stock"]%string in
  (exists ns, NoDup ns /\ (forall n, In n ns <-> exists i, on_curve cx ex i n) /\ curves_nudged (cx_exp cx) b ns (st_market s) (st_market s')) /\
  only (fun c x => exists i n, on_curve cx ex i n /\ c = code i /\ x = GreekCell Rho n) s s' /\
  forall i n, on_curve cx ex i n -> exists ns m1 m2 up npv, ~ In n ns /\ curves_nudged (cx_exp cx) b ns (st_market s) m1 /\ curve_bumped (cx_exp cx) n None None b m1 m2 /\
    priced cx m2 i up /\ reported_npv s i npv /\ reported_greek s' i Rho n (slope up npv b bp (notional i)).
Proof.
  intros cx s s' C H b ex. unfold runs, set_rho in H. step H names s1 E. apply pure_ok in E. destruct E as [NA ->]. assert (NA' : all_curve_names (cx_match cx) (cx_insts cx) = ROk names) by congruence. clear NA.
  pose proof (c173_names (cx_match cx) (cx_insts cx)) as Q. rewrite NA' in Q. destruct Q as (ND & NDU & _ & NM). fold b ex in H. set (sel := fun n => using_curve (cx_insts cx) n (cx_match cx) ex) in H.
  assert (ND1 : forall n, In n names -> n <> dummy) by (intros n I ->; contradiction).
  assert (SC : forall n is, In n names -> sel n = ROk is -> coded is). { intros n is I E. apply (coded_sub (cx_insts cx)); [exact C|]. intros i J. apply (curve_sel cx ex n is (ND1 n I) E) in J. destruct J as [J _]. exact J. }
  destruct (greeks_ok cx Rho sel (fun n b => bump_curve cx n None None b) b bp (fun n => curve_bumped (cx_exp cx) n None None) ltac:(intros; eapply bump_curve_ok; eassumption) names s s' ND SC H) as (T & O & G).
  assert (OK : forall n, In n names -> exists is, sel n = ROk is) by (intros n I; destruct (G n I) as (is & E & _); eauto).
  assert (NF : forall l, NoDup l -> NoDup (List.filter (used sel) l)) by (intros; apply NoDup_filter; assumption).
  split; [|split].
  - exists (List.filter (used sel) names). split; [apply NF; exact ND|]. split; [|apply curves_trail; [exact T|apply NF; exact ND]]. intro n. rewrite filter_In. split.
    + intros [I U]. destruct (OK n I) as (is & E). apply (used_iff sel n is E) in U. destruct U as (i & J). exists i. apply (curve_sel cx ex n is (ND1 n I) E). exact J.
    + intros (i & J). pose proof J as (I & X & D & NE). assert (IN : In n names) by (apply (NM n D); exists i; auto). split; [exact IN|]. destruct (OK n IN) as (is & E). apply (used_iff sel n is E). exists i. apply (curve_sel cx ex n is D E). exact J.
  - apply (only_weaken (fun c x => exists k is, In k names /\ sel k = ROk is /\ greek_cells Rho is k c x)); [|exact O]. intros c x (n & is & I & E & -> & i & J & <-). exists i, n. split; [|auto]. apply (curve_sel cx ex n is (ND1 n I) E). exact J.
  - intros i n J. pose proof J as (I & X & D & NE). assert (IN : In n names) by (apply (NM n D); exists i; auto). destruct (G n IN) as (is & E & GI). destruct (GI i) as (pre & post & m1 & m2 & up & npv & L & T1 & B1 & P & N & R). { apply (curve_sel cx ex n is D E). exact J. }
    destruct (split_nodup _ _ _ _ _ ND L) as [NP NI]. exists (List.filter (used sel) pre), m1, m2, up, npv. split; [intro Q; apply filter_In in Q; destruct Q; contradiction|]. split; [apply curves_trail; [exact T1|apply NF; exact NP]|]. auto.
Qed.
(** C187: the same for vega, underlying by underlying, for a percent *)
Theorem c187_vega : forall cx s s', coded (cx_insts cx) -> runs (set_vega cx) s s' -> let b := cf_vega_bump (cx_config cx) in let ex := ["Futures"; "Stock"]%string in
  (exists us, NoDup us /\ (forall u, In u us <-> exists i, on_underlying cx ex i u) /\ vols_nudged b us (st_market s) (st_market s')) /\
  only (fun c x => exists i u, on_underlying cx ex i u /\ c = code i /\ x = GreekCell Vega u) s s' /\
  forall i u, on_underlying cx ex i u -> exists us m1 m2 up npv, ~ In u us /\ vols_nudged b us (st_market s) m1 /\ vol_bumped u None None None None b m1 m2 /\
    priced cx m2 i up /\ reported_npv s i npv /\ reported_greek s' i Vega u (slope up npv b pct (notional i)).
Proof.
  intros cx s s' C H b ex. unfold runs, set_vega in H. fold b ex in H. set (sel := fun u => ROk (with_underlying (cx_insts cx) u ex)) in H. destruct (all_underlyings_firsts (cx_insts cx)) as [ND NM]. set (names := all_underlyings (cx_insts cx)) in *.
  assert (SC : forall n is, In n names -> sel n = ROk is -> coded is). { intros n is I E. apply (coded_sub (cx_insts cx)); [exact C|]. intros i J. unfold sel in E. injection E as <-. apply und_sel in J. destruct J as [J _]. exact J. }
  destruct (greeks_ok cx Vega sel (fun u b => bump_vol u None None None None b) b pct (fun u => vol_bumped u None None None None) ltac:(intros; eapply bump_vol_ok; eassumption) names s s' ND SC H) as (T & O & G).
  assert (NF : forall l, NoDup l -> NoDup (List.filter (used sel) l)) by (intros; apply NoDup_filter; assumption).
  split; [|split].
  - exists (List.filter (used sel) names). split; [apply NF; exact ND|]. split; [|apply vols_trail; [exact T|apply NF; exact ND]]. intro u. rewrite filter_In. rewrite (used_iff sel u _ eq_refl). split.
    + intros [_ (i & J)]. exists i. apply und_sel. exact J.
    + intros (i & J). split; [apply NM; destruct J as (J1 & _ & J2); eauto|]. exists i. apply und_sel. exact J.
  - apply (only_weaken (fun c x => exists k is, In k names /\ sel k = ROk is /\ greek_cells Vega is k c x)); [|exact O]. intros c x (n & is & I & E & -> & i & J & <-). unfold sel in E. injection E as <-. exists i, n. split; [|auto]. apply und_sel. exact J.
  - intros i u J. assert (IN : In u names) by (apply NM; destruct J as (J1 & _ & J2); eauto). destruct (G u IN) as (is & E & GI). unfold sel in E. injection E as <-. destruct (GI i) as (pre & post & m1 & m2 & up & npv & L & T1 & B1 & P & N & R). { apply und_sel. exact J. }
    destruct (split_nodup _ _ _ _ _ ND L) as [NP NI]. exists (List.filter (used sel) pre), m1, m2, up, npv. split; [intro Q; apply filter_In in Q; destruct Q; contradiction|]. split; [apply vols_trail; [exact T1|apply NF; exact NP]|]. auto.
Qed.
(** C188: and for the amounts of the dividends of each underlying *)
Theorem c188_div : forall cx s s', coded (cx_insts cx) -> divs_apart (st_market s) -> runs (set_div_delta cx) s s' -> let b := cf_div_bump (cx_config cx) in let ex := ["Stock"; "Cash"]%string in
  (exists us, NoDup us /\ (forall u, In u us <-> exists i, on_underlying cx ex i u) /\ divs_nudged b us (st_market s) (st_market s')) /\
  only (fun c x => exists i u, on_underlying cx ex i u /\ c = code i /\ x = GreekCell DivDelta u) s s' /\
  forall i u, on_underlying cx ex i u -> exists us m1 m2 up npv, ~ In u us /\ divs_nudged b us (st_market s) m1 /\ div_bumped u None None b m1 m2 /\
    priced cx m2 i up /\ reported_npv s i npv /\ reported_greek s' i DivDelta u (slope up npv b bp (notional i)).
Proof.
  intros cx s s' C AP H b ex. unfold runs, set_div_delta in H. fold b ex in H. set (sel := fun u => ROk (with_underlying (cx_insts cx) u ex)) in H. destruct (all_underlyings_firsts (cx_insts cx)) as [ND NM]. set (names := all_underlyings (cx_insts cx)) in *.
  assert (SC : forall n is, In n names -> sel n = ROk is -> coded is). { intros n is I E. apply (coded_sub (cx_insts cx)); [exact C|]. intros i J. unfold sel in E. injection E as <-. apply und_sel in J. destruct J as [J _]. exact J. }
  destruct (greeks_ok cx DivDelta sel (fun u b => bump_div u None None b) b bp (fun u => div_bumped u None None) ltac:(intros; eapply bump_div_ok; eassumption) names s s' ND SC H) as (T & O & G).
  assert (NF : forall l, NoDup l -> NoDup (List.filter (used sel) l)) by (intros; apply NoDup_filter; assumption).
  split; [|split].
  - exists (List.filter (used sel) names). split; [apply NF; exact ND|]. split; [|apply divs_trail; [exact T|apply NF; exact ND|exact AP]]. intro u. rewrite filter_In. rewrite (used_iff sel u _ eq_refl). split.
    + intros [_ (i & J)]. exists i. apply und_sel. exact J.
    + intros (i & J). split; [apply NM; destruct J as (J1 & _ & J2); eauto|]. exists i. apply und_sel. exact J.
  - apply (only_weaken (fun c x => exists k is, In k names /\ sel k = ROk is /\ greek_cells DivDelta is k c x)); [|exact O]. intros c x (n & is & I & E & -> & i & J & <-). unfold sel in E. injection E as <-. exists i, n. split; [|auto]. apply und_sel. exact J.
  - intros i u J. assert (IN : In u names) by (apply NM; destruct J as (J1 & _ & J2); eauto). destruct (G u IN) as (is & E & GI). unfold sel in E. injection E as <-. destruct (GI i) as (pre & post & m1 & m2 & up & npv & L & T1 & B1 & P & N & R). { apply und_sel. exact J. }
    destruct (split_nodup _ _ _ _ _ ND L) as [NP NI]. exists (List.filter (used sel) pre), m1, m2, up, npv. split; [intro Q; apply filter_In in Q; destruct Q; contradiction|]. split; [apply divs_trail; [exact T1|apply NF; exact NP|exact AP]|]. auto.
Qed.

(** ** In a whole calculation: what is reported at the end is what the stage
    reported, from the prices reported at the end *)
Lemma frame_greek : forall g (a : act unit), keeps (fun x => ~ greek_cell g x /\ x <> NpvCell) a -> forall s r s', a s = Ret (r, s') -> forall i x n v, (reported_npv s i x <-> reported_npv s' i x) /\ (reported_greek s i g n v -> reported_greek s' i g n v).
Proof.
  intros g a K s r s' H i x n v. pose proof (K s r s' H) as O. split; [symmetry; apply (only_npv _ _ _ i x O); intros [_ Q]; apply Q; reflexivity|]. apply (only_greek _ _ _ i g n v O). intros [Q _]. apply Q. reflexivity.
Qed.
Definition after_vega (cx : context) : act unit :=
  let c := cx_config cx in
  let* _ := whenever (cf_rho c) (set_rho cx) in
  let* _ := whenever (cf_div c) (set_div_delta cx) in
  let* _ := whenever (cf_vega_structure c) (set_vega_structure cx) in
  let* _ := whenever (cf_rho_structure c) (set_rho_structure cx) in
  let* _ := whenever (cf_div_structure c) (set_div_structure cx) in
  whenever (cf_vega_matrix c) (set_vega_matrix cx).
Definition after_rho (cx : context) : act unit :=
  let c := cx_config cx in
  let* _ := whenever (cf_div c) (set_div_delta cx) in
  let* _ := whenever (cf_vega_structure c) (set_vega_structure cx) in
  let* _ := whenever (cf_rho_structure c) (set_rho_structure cx) in
  let* _ := whenever (cf_div_structure c) (set_div_structure cx) in
  whenever (cf_vega_matrix c) (set_vega_matrix cx).
Definition after_div (cx : context) : act unit :=
  let c := cx_config cx in
  let* _ := whenever (cf_vega_structure c) (set_vega_structure cx) in
  let* _ := whenever (cf_rho_structure c) (set_rho_structure cx) in
  let* _ := whenever (cf_div_structure c) (set_div_structure cx) in
  whenever (cf_vega_matrix c) (set_vega_matrix cx).
Lemma keeps_after_div : forall cx g, keeps (fun x => ~ greek_cell g x /\ x <> NpvCell) (after_div cx).
Proof.
  intros cx g. unfold after_div. repeat (apply keeps_andthen; [apply keeps_whenever|intros _]); [| | |apply keeps_whenever].
  - apply (keeps_more _ (ladder_cell VegaLadder)); [intros x H; destruct x; try contradiction H; split; [intro Q; exact Q|discriminate]|apply keeps_vega_structure].
  - apply (keeps_more _ (ladder_cell RhoLadder)); [intros x H; destruct x; try contradiction H; split; [intro Q; exact Q|discriminate]|apply keeps_rho_structure].
  - apply (keeps_more _ (ladder_cell DivLadder)); [intros x H; destruct x; try contradiction H; split; [intro Q; exact Q|discriminate]|apply keeps_div_structure].
  - apply (keeps_more _ matrix_cell); [intros x H; destruct x; try contradiction H; split; [intro Q; exact Q|discriminate]|apply keeps_matrix].
Qed.
Lemma greek_cell_other : forall g h x, g <> h -> greek_cell g x -> ~ greek_cell h x /\ x <> NpvCell.
Proof. intros g h x N H. destruct x as [| | |g' k| | | |]; try contradiction H. cbn in *. subst g'. split; [exact N|discriminate]. Qed.
Lemma keeps_after_rho : forall cx g, g <> DivDelta -> keeps (fun x => ~ greek_cell g x /\ x <> NpvCell) (after_rho cx).
Proof. intros cx g N. unfold after_rho. apply keeps_andthen; [apply keeps_whenever|intros _; apply keeps_after_div]. apply (keeps_more _ (greek_cell DivDelta)); [|apply keeps_div]. intros x. apply greek_cell_other. congruence. Qed.
Lemma keeps_after_vega : forall cx, keeps (fun x => ~ greek_cell Vega x /\ x <> NpvCell) (after_vega cx).
Proof. intros cx. unfold after_vega. apply keeps_andthen; [apply keeps_whenever|intros _; apply keeps_after_rho; discriminate]. apply (keeps_more _ (greek_cell Rho)); [|apply keeps_rho]. intros x. apply greek_cell_other. discriminate. Qed.
Lemma calculate_at : forall cx s s', runs (calculate cx) s s' -> exists s1 s2 s3 s4, runs (whenever (cf_vega (cx_config cx)) (set_vega cx)) s1 s2 /\ runs (whenever (cf_rho (cx_config cx)) (set_rho cx)) s2 s3 /\ runs (whenever (cf_div (cx_config cx)) (set_div_delta cx)) s3 s4 /\
  after_vega cx s2 = Ret (ROk tt, s') /\ after_rho cx s3 = Ret (ROk tt, s') /\ after_div cx s4 = Ret (ROk tt, s') /\ (forall i x, reported_npv s1 i x <-> reported_npv s2 i x).
Proof.
  intros cx s s' H. unfold runs, calculate in H. do 4 (step H u0 s0 E0; destruct u0; clear E0 s; rename s0 into s). step H u0 s2 E2. destruct u0. pose proof H as H2. step H u0 s3 E3. destruct u0. pose proof H as H3. step H u0 s4 E4. destruct u0. exists s, s2, s3, s4. split; [exact E2|]. split; [exact E3|]. split; [exact E4|]. split; [exact H2|]. split; [exact H3|]. split; [exact H|].
  intros i x. pose proof (keeps_whenever _ (cf_vega (cx_config cx)) _ (keeps_vega cx) s _ s2 E2) as O. symmetry. apply (only_npv _ _ _ i x O). intro Q. exact Q.
Qed.
Theorem c186_calculated : forall cx s s', cf_rho (cx_config cx) = true -> runs (calculate cx) s s' -> exists s1 s2, runs (set_rho cx) s1 s2 /\ (forall i x, reported_npv s1 i x <-> reported_npv s' i x) /\ (forall i n v, reported_greek s2 i Rho n v -> reported_greek s' i Rho n v).
Proof.
  intros cx s s' C H. destruct (calculate_at cx s s' H) as (s1 & s2 & s3 & s4 & E2 & E3 & E4 & A2 & A3 & A4 & _). rewrite C in E3. exists s2, s3. split; [exact E3|]. split; [intros i x; exact (proj1 (frame_greek Vega _ (keeps_after_vega cx) _ _ _ A2 i x EmptyString (gof_Z 0)))|].
  intros i n v. exact (proj2 (frame_greek Rho _ (keeps_after_rho cx Rho ltac:(discriminate)) _ _ _ A3 i (gof_Z 0) n v)).
Qed.
Theorem c187_calculated : forall cx s s', cf_vega (cx_config cx) = true -> runs (calculate cx) s s' -> exists s1 s2, runs (set_vega cx) s1 s2 /\ (forall i x, reported_npv s1 i x <-> reported_npv s' i x) /\ (forall i n v, reported_greek s2 i Vega n v -> reported_greek s' i Vega n v).
Proof.
  intros cx s s' C H. destruct (calculate_at cx s s' H) as (s1 & s2 & s3 & s4 & E2 & E3 & E4 & A2 & A3 & A4 & NP). rewrite C in E2. exists s1, s2. split; [exact E2|]. split; [intros i x; rewrite (NP i x); exact (proj1 (frame_greek Vega _ (keeps_after_vega cx) _ _ _ A2 i x EmptyString (gof_Z 0)))|].
  intros i n v. exact (proj2 (frame_greek Vega _ (keeps_after_vega cx) _ _ _ A2 i (gof_Z 0) n v)).
Qed.
Theorem c188_calculated : forall cx s s', cf_div (cx_config cx) = true -> runs (calculate cx) s s' -> exists s1 s2, runs (set_div_delta cx) s1 s2 /\ (forall i x, reported_npv s1 i x <-> reported_npv s' i x) /\ (forall i n v, reported_greek s2 i DivDelta n v -> reported_greek s' i DivDelta n v).
Proof.
  intros cx s s' C H. destruct (calculate_at cx s s' H) as (s1 & s2 & s3 & s4 & E2 & E3 & E4 & A2 & A3 & A4 & NP). rewrite C in E4. exists s3, s4. split; [exact E4|]. split; [intros i x; exact (proj1 (frame_greek Rho _ (keeps_after_rho cx Rho ltac:(discriminate)) _ _ _ A3 i x EmptyString (gof_Z 0)))|].
  intros i n v. exact (proj2 (frame_greek DivDelta _ (keeps_after_div cx DivDelta) _ _ _ A4 i (gof_Z 0) n v)).
Qed.

(** ** Examples *)
Definition rise (x : f32) : f32 := gadd (gof_Z 1) x.
Definition got {A} (o : outcome (rresult A)) (d : A) : A := match o with Ret (ROk x) => x | _ => d end.
Definition no_linear : QInterpModel.linear := Linear [] [] [] XNone false.
(** a curve of 1/16, a surface of 1/4 and a dividend of 2 at 100; the price is the
    sum of the first rate, the first volatility and the first dividend *)
Definition ex_curve0 : curve := got (curve_new rise (ex_day 19797) (VectorData [gdiv (gof_Z 1) (gof_Z 16)] None [gof_Z 1] None)) (Curve (RConst (gof_Z 0)) [] [] [] no_linear).
Definition ex_div0 : dividend := got (dividend_new (ex_day 19797) (VectorData [gof_Z 2] (Some [ex_day 19850]) [] None) (gof_Z 100)) (Dividend [] [] [] [] (DConst (gof_Z 1)) (gof_Z 1)).
Definition ex_vol0 : surface :=
  let e := VolEnv (ex_day 19797) ex_curve0 ex_curve0 (gof_Z 100) (Some ex_div0) in
  match with_constant_volatility e StickyToMoneyness (gdiv (gof_Z 1) (gof_Z 4)) [list_ascii_of_string "1Y"; list_ascii_of_string "2Y"] [gof_Z 1; gof_Z 2] with
  | Ret (ROk o) => got (vol_build e o) o
  | _ => Surface [] [] [] [] (gof_Z 1) no_bilinear StickyToMoneyness
  end.
Definition ex_full : market := Market (World (ex_day 19797) [MarketPrice (gof_Z 100) (ex_day 19797) (Some 0%nat)] [ex_div0] [] []) (fun u => if String.eqb u "a" then Some 0%nat else None) (fun u => if String.eqb u "a" then Some 0%nat else None)
  (fun n => if String.eqb n "c" then Some ex_curve0 else None) (fun u => if String.eqb u "a" then Some (VolEntry ex_vol0 "c" "c") else None).
Definition ex_sum (m : market) : outcome (rresult f32) :=
  match mk_curve m "c", mk_vol m "a", w_dividends (mk_world m) with
  | Some c, Some v, [d] => match cv_rates c, su_grid (vt_surface v), dv_amounts d with x :: _, (y :: _) :: _, z :: _ => Ret (ROk (gadd (gadd x y) z)) | _, _, _ => Ret RErr end
  | _, _, _ => Ret RErr
  end.
Definition ex_sum_pricer : pricer := Pricer (fun m _ => ex_sum m) (fun m _ => let? x := ex_sum m in Ret (ROk (result_of_npv x))) own_fx.
Definition tiny_bump : f32 := gdiv (gof_Z 1) (gof_Z 64).
Definition ex_bumps : config := Config true false false false true true true false false false false false tiny_bump tiny_bump tiny_bump tiny_bump tiny_bump tiny_bump tiny_bump 1 [] [] [] [].
Definition ex_full_cx : context := Context [ex_opt "O1" 64] (fun _ => Some ex_sum_pricer) (MatchParameter (fun _ => Some "c"%string) (fun _ => Some "c"%string) (fun _ => None) (fun _ => None) (fun _ => None) (fun _ => Some "c"%string)) ex_bumps ["O1"]%string ["a"]%string (fun l => l) (fun l => l) rise.
Definition near_to (x : option f32) (n d : Z) : bool := match x with Some v => glt (gdiv (gof_Z (n - 1)) (gof_Z d)) v && glt v (gdiv (gof_Z (n + 1)) (gof_Z d)) | None => false end.
(** rho and dividend delta 64 bp, vega 64 percent *)
Definition bumps_check (s : state) : bool := match st_results s "O1" with Some c => near_to (ca_greek c Rho "c") 640 100000 && near_to (ca_greek c Vega "a") 640 1000 && near_to (ca_greek c DivDelta "a") 640 100000 | None => false end.
Lemma ex_full_apart : divs_apart ex_full.
Proof. intros u v k U V. cbn in U, V. destruct (String.eqb_spec u "a") as [->|]; [|discriminate U]. destruct (String.eqb_spec v "a") as [->|]; [|discriminate V]. reflexivity. Qed.
Example c186_hypotheses_met : exists s s', with_instruments ex_full (cx_insts ex_full_cx) = ROk s /\ coded (cx_insts ex_full_cx) /\ divs_apart ex_full /\ runs (calculate ex_full_cx) s s' /\ on_curve ex_full_cx ["Stock"]%string (ex_opt "O1" 64) "c" /\ on_underlying ex_full_cx ["Futures"; "Stock"]%string (ex_opt "O1" 64) "a" /\ bumps_check s' = true.
Proof.
  eexists. destruct (ends_well_ok (calculate ex_full_cx (match with_instruments ex_full (cx_insts ex_full_cx) with ROk s => s | RErr => State ex_full (fun _ => None) [] end)) bumps_check) as (s' & R & T); [vm_compute; reflexivity|].
  exists s'. split; [reflexivity|]. split; [apply coded_nodup; repeat constructor; intros []|]. split; [exact ex_full_apart|]. split; [exact R|].
  split; [split; [left; reflexivity|]; split; [cbn; intuition discriminate|]; split; [discriminate|]; exact (need_collateral (cx_match ex_full_cx) (ex_opt "O1" 64) "a" (or_introl eq_refl))|]. split; [|exact T]. split; [left; reflexivity|]. split; [cbn; intuition discriminate|left; reflexivity].
Qed.
(** REFUTED: the delta of dividends is calculated or an error: it panics if an
    underlying has no dividend *)
Theorem c188_no_dividend_refuted : ~ forall cx m s, with_instruments m (cx_insts cx) = ROk s -> set_div_delta cx s <> Panic.
Proof.
  intro H. refine (H (ex_cx [ex_opt "O1" 10] ["O1"]%string false) ex_mkt _ eq_refl _). vm_compute. reflexivity.
Qed.

Print Assumptions c186_rho.
Print Assumptions c187_vega.
Print Assumptions c188_div.
Print Assumptions c186_calculated.
Print Assumptions c187_calculated.
Print Assumptions c188_calculated.
Print Assumptions c188_no_dividend_refuted.
