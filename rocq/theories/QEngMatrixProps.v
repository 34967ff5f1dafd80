(** QEngMatrixProps.v -- C193: vega by tenor and moneyness. *)
From Coq Require Import ZArith Arith Ascii String.
From Coq Require Import List Bool Lia Sorting.Sorted.
From Flocq Require Import Core IEEE754.BinarySingleNaN.
From Verif Require Import Base FloatModel FloatFacts KrxModel QDateModel QYearModel QPeriodModel QPeriodSpec QFindModel QInterpModel QInterpSpec QFloatErr QLinProps QDivModel QCurveModel QMoneyModel QBondModel QFutModel QInstModel QInstSpec QInstProps QMatchProps QVolModel QVolSpec QEngModel QEngSpec QEngProofs QEngFrame QEngProps QEngDeltaProps QEngBump QEngBumpProps QEngLadder QEngLadderProps QEngVega QEngVegaProps QEngMatrix.
Import ListNotations.
Open Scope Z_scope.

(** C193: underlying by underlying the cells of the surface are bumped, one on top of
    the other, the tenors from the last to the first and in each the moneynesses from
    the first to the last; a tenor that starts after the last maturity is left out, its
    entries are zero.  The entry of a cell is the change of the price by it for a
    percent; at the end the whole surface is lowered *)
Theorem c193_vega_matrix : forall cx s s', coded (cx_insts cx) -> runs (set_vega_matrix cx) s s' -> let b := cf_vega_structure_bump (cx_config cx) in let money := cf_moneyness (cx_config cx) in let eval := w_date (mk_world (st_market s)) in let users := fun u i => on_underlying cx ["Cash"; "Stock"; "Futures"]%string i u in
  exists times, Forall2 (fun tenor t => exists d, add_period eval tenor = Ret d /\ get_time_difference eval d = Ret t) (cf_vega_tenors (cx_config cx)) times /\
  (exists us, NoDup us /\ (forall u, In u us <-> exists i, users u i) /\ walks b times money us (st_market s) (st_market s')) /\
  only (fun c x => exists u i, x = MatrixCell u /\ In i (cx_insts cx) /\ code i = c) s s' /\
  forall u i, users u i -> exists us m0 m1 m2 v last steps, ~ In u us /\ walks b times money us (st_market s) m0 /\ last_time (users u) eval last /\
    walked u b times money m0 steps m1 /\ vol_bumped u None None None None (gneg b) m1 m2 /\ cell_order times money last (map fst steps) /\ (steps <> [] -> reported_matrix s' i u v) /\
    (forall a c, entry v a c <> None <-> (a < List.length times)%nat /\ (c < List.length money)%nat) /\ (forall a c, (a < List.length times)%nat -> (c < List.length money)%nat -> tenor_skipped times last a -> entry v a c = Some (gof_Z 0)) /\
    forall pre a c m post, steps = pre ++ ((a, c), m) :: post -> exists up down, priced cx m i up /\ price_after cx s i pre down /\ entry v a c = Some (slope up down b pct (notional i)).
Proof.
  intros cx s s' C H b money eval users. unfold runs, set_vega_matrix in H. step H s0 s1 E. apply get_ok in E. destruct E as [-> ->]. fold eval b money in H. step H times s1 E. apply total_ok in E. destruct E as [ET ->]. exists times. split.
  { unfold vega_times in ET. apply map_out_forall2 in ET. clear - ET. induction ET as [|te t l r Q ET IH]; constructor; [|exact IH]. destruct (add_period eval te) as [d| |]; cbn [obind] in Q; try discriminate Q. exists d. auto. }
  destruct (all_underlyings_firsts (cx_insts cx)) as [ND NM]. destruct (matrix_all_ok cx eval b times money C _ ND [] _ s s' (fun k (Q : In k []) => match Q with end) H) as (D & O & R). split; [|split].
  - exists (List.filter (vega_used cx) (all_underlyings (cx_insts cx))). split; [apply NoDup_filter; exact ND|]. split; [|exact D]. intro u. rewrite filter_In, vega_used_iff. split; [intros [_ Q]; exact Q|]. intros (i & U). split; [apply NM; destruct U as (U1 & _ & U2); eauto|exists i; exact U].
  - eapply only_weaken; [|exact O]. intros c x (u & i & _ & Q). exists u, i. exact Q.
  - intros u i U. assert (IN : In u (all_underlyings (cx_insts cx))) by (apply NM; destruct U as (U1 & _ & U2); eauto). exact (R u i IN U).
Qed.
(** in a whole calculation it comes last *)
Theorem c193_calculated : forall cx s s', cf_vega_matrix (cx_config cx) = true -> runs (calculate cx) s s' -> exists s1, runs (set_vega_matrix cx) s1 s' /\ forall i x, reported_npv s1 i x <-> reported_npv s' i x.
Proof.
  intros cx s s' C H. destruct (calculate_ladders cx s s' H) as (s1 & s2 & s3 & s4 & E2 & E3 & E4 & E5 & A2 & A3 & NP). rewrite C in E5. exists s4. split; [exact E5|]. intros i x. symmetry. apply (only_npv (fun _ y => matrix_cell y)); [exact (keeps_matrix cx s4 _ s' E5)|intro Q; exact Q].
Qed.
(** no cell is bumped by the bump that is configured for the matrix *)
Definition matrix_bump_of (b : f32) (c : config) : config := Config (cf_npv c) (cf_fx c) (cf_delta c) (cf_gamma c) (cf_vega c) (cf_rho c) (cf_div c) (cf_theta c) (cf_vega_structure c) (cf_rho_structure c) (cf_div_structure c) (cf_vega_matrix c)
  (cf_delta_ratio c) (cf_gamma_ratio c) (cf_vega_bump c) (cf_vega_structure_bump c) b (cf_rho_bump c) (cf_div_bump c) (cf_theta_day c) (cf_rho_tenors c) (cf_vega_tenors c) (cf_div_tenors c) (cf_moneyness c).
Definition matrix_bumped_by (b : f32) (cx : context) : context := Context (cx_insts cx) (cx_pricer cx) (cx_match cx) (matrix_bump_of b (cx_config cx)) (cx_keys cx) (cx_div_keys cx) (cx_coupons cx) (cx_cash cx) (cx_exp cx).
Theorem c193_bump_refuted : forall cx b s, calculate (matrix_bumped_by b cx) s = calculate cx s.
Proof. intros [is pr mp [? ? ? ? ? ? ? ? ? ? ? ? ? ? ? ? ? ? ? ? ? ? ? ?] ks ds co ca ex] b s. reflexivity. Qed.

(** ** Examples *)
(** the second tenor is skipped, the second moneyness beyond the last of the matrix:
    all but the first volatility are only lowered *)
Definition ex_cells : config := Config true false false false false false false false false false false true tiny_bump tiny_bump tiny_bump tiny_bump tiny_bump tiny_bump tiny_bump 1 [] [str "1Y"; str "2Y"] [] [gof_Z 1].
Definition ex_cells_cx : context := Context [ex_opt "O1" 64] (fun _ => Some ex_sum_pricer) (cx_match ex_full_cx) ex_cells ["O1"]%string ["a"]%string (fun l => l) (fun l => l) rise.
Definition quarter (x : option f32) (n : Z) : bool := match x with Some v => geq v (gdiv (gof_Z n) (gof_Z 64)) | None => false end.
Definition cells_check (s : state) : bool :=
  match st_results s "O1" with
  | Some c => match ca_matrix c "a" with Some [[v0]; [v1]] => near_to (Some v0) 640 1000 && geq v1 (gof_Z 0) | _ => false end
  | None => false
  end && quarter (grid_cell (st_market s) 0 0) 16 && quarter (grid_cell (st_market s) 0 1) 15 && quarter (grid_cell (st_market s) 1 0) 15.
Example c193_hypotheses_met : exists s s', with_instruments ex_full (cx_insts ex_cells_cx) = ROk s /\ coded (cx_insts ex_cells_cx) /\ runs (calculate ex_cells_cx) s s' /\ on_underlying ex_cells_cx ["Cash"; "Stock"; "Futures"]%string (ex_opt "O1" 64) "a" /\ cells_check s' = true.
Proof.
  exists ex_start. destruct (ends_well_ok (calculate ex_cells_cx ex_start) cells_check) as (s' & R & T); [vm_compute; reflexivity|]. exists s'. split; [reflexivity|]. split; [apply coded_nodup; repeat constructor; intros []|]. split; [exact R|]. split; [|exact T].
  split; [left; reflexivity|]. split; [cbn; intuition discriminate|left; reflexivity].
Qed.
Theorem c193_restored_refuted : exists cx m s s' v v' y y', with_instruments m (cx_insts cx) = ROk s /\ runs (calculate cx) s s' /\ mk_vol m "a" = Some v /\ mk_vol (st_market s') "a" = Some v' /\ QVolSpec.cell (su_grid (vt_surface v)) 1 0 = Some y /\ QVolSpec.cell (su_grid (vt_surface v')) 1 0 = Some y' /\
  geq y (gdiv (gof_Z 16) (gof_Z 64)) = true /\ geq y' (gdiv (gof_Z 15) (gof_Z 64)) = true.
Proof.
  exists ex_cells_cx, ex_full, ex_start. destruct (ends_well_ok (calculate ex_cells_cx ex_start) cells_check) as (s' & R & T); [vm_compute; reflexivity|]. exists s'. apply andb_prop in T. destruct T as [_ T]. assert (T0 : quarter (grid_cell ex_full 1 0) 16 = true) by (vm_compute; reflexivity). unfold grid_cell in T, T0.
  destruct (mk_vol ex_full "a") as [v|]; [|discriminate T0]. destruct (mk_vol (st_market s') "a") as [v'|]; [|discriminate T]. unfold quarter in T, T0. destruct (QVolSpec.cell (su_grid (vt_surface v)) 1 0) as [y|] eqn:Y; [|discriminate T0]. destruct (QVolSpec.cell (su_grid (vt_surface v')) 1 0) as [y'|] eqn:Y'; [|discriminate T].
  exists v, v', y, y'. do 4 (split; [try exact R; reflexivity|]). auto.
Qed.
(** with two underlyings an option of the first gets its matrix again as one of the
    second, which is none of its underlyings *)
Definition ex_two : market := Market (mk_world ex_full) (fun u => if has String.eqb u ["a"; "b"]%string then Some 0%nat else None) (fun u => if has String.eqb u ["a"; "b"]%string then Some 0%nat else None) (mk_curve ex_full) (fun u => if has String.eqb u ["a"; "b"]%string then Some (VolEntry ex_vol0 "c" "c") else None).
Definition ex_opt_b : instrument := Inst "option" "O2" Ccy_KRW (gof_Z 64) (ex_day 19900) (KOption Call "b" Ccy_KRW false None).
Definition ex_two_cx : context := Context [ex_opt "O1" 64; ex_opt_b] (fun _ => Some ex_sum_pricer) (cx_match ex_full_cx) ex_cells ["O1"; "O2"]%string ["a"; "b"]%string (fun l => l) (fun l => l) rise.
Definition stale_check (s : state) : bool := match st_results s "O1" with Some c => match ca_matrix c "b" with Some [[v0]; _] => near_to (Some v0) 640 1000 | _ => false end | None => false end.
Theorem c193_underlyings_refuted : ~ forall cx m s s' i u v, with_instruments m (cx_insts cx) = ROk s -> runs (calculate cx) s s' -> In i (cx_insts cx) -> reported_matrix s' i u v -> In u (underlyings i).
Proof.
  intro H. set (s := match with_instruments ex_two (cx_insts ex_two_cx) with ROk s => s | RErr => State ex_full (fun _ => None) [] end). destruct (ends_well_ok (calculate ex_two_cx s) stale_check) as (s' & R & T); [vm_compute; reflexivity|]. unfold stale_check in T. destruct (st_results s' "O1") as [c|] eqn:E; [|discriminate T]. destruct (ca_matrix c "b") as [v|] eqn:V; [|discriminate T].
  destruct (H ex_two_cx ex_two s s' (ex_opt "O1" 64) "b"%string v eq_refl R (or_introl eq_refl)) as [Q|[]]; [exists c; split; [exact E|exact V]|discriminate Q].
Qed.

Print Assumptions c193_vega_matrix.
Print Assumptions c193_calculated.
Print Assumptions c193_bump_refuted.
Print Assumptions c193_restored_refuted.
Print Assumptions c193_underlyings_refuted.
