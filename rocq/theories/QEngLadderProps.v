(** QEngLadderProps.v -- C189 and C190: rho and dividend delta by tenor. *)
From Coq Require Import ZArith Arith Ascii String.
From Coq Require Import List Bool Lia Reals Lra.
From Flocq Require Import Core IEEE754.BinarySingleNaN.
From Verif Require Import Base FloatModel FloatFacts KrxModel QDateModel QYearModel QPeriodModel QPeriodSpec QFindModel QInterpModel QInterpSpec QFloatErr QLinProps QDivModel QCurveModel QCurveFacts QCurveReach QCurveProps QCurveFwdProps QMoneyModel QBondModel QSwapModel QFutModel QInstModel QInstSpec QInstProps QMatchProps QVolModel QEngModel QEngSpec QEngProofs QEngFrame QEngProps QEngDeltaProps QEngBump QEngBumpProps QEngBackProps QEngLadder QCurveSpec.
Import ListNotations.
Open Scope Z_scope.

Lemma fst_combine : forall A B (l : list A) (r : list B), List.length l = List.length r -> map fst (combine l r) = l.
Proof. induction l as [|x l IH]; intros [|y r] H; cbn in *; try discriminate; try reflexivity. rewrite IH by congruence. reflexivity. Qed.
Lemma snd_combine : forall A B (l : list A) (r : list B), List.length l = List.length r -> map snd (combine l r) = r.
Proof. induction l as [|x l IH]; intros [|y r] H; cbn in *; try discriminate; try reflexivity. rewrite IH by congruence. reflexivity. Qed.
Lemma forall2_len : forall A B (P : A -> B -> Prop) l r, Forall2 P l r -> List.length l = List.length r.
Proof. intros A B P l r H. induction H; cbn; congruence. Qed.

(** C189: rho by tenor.  The tenors are counted from the evaluation date; the ladder
    of every instrument but stock and cash in every curve it is priced off has one
    rung a tenor: the change of its price when the rates of that curve after the
    tenor before and up to this tenor alone are bumped, for a basis point; it is zero
    where nothing that uses the curve is alive any more *)
Theorem c189_rho_ladder : forall cx s s', coded (cx_insts cx) -> runs (set_rho_structure cx) s s' -> let b := cf_rho_bump (cx_config cx) in let eval := w_date (mk_world (st_market s)) in let users := fun n i => on_curve cx ["Stock"; "Cash"]%string i n in
  exists names dates times, NoDup names /\ (forall n, n <> dummy -> In n names <-> exists i, In i (cx_insts cx) /\ needs (cx_match cx) i (Some n)) /\
    Forall2 (fun t d => add_period eval t = Ret d) (cf_rho_tenors (cx_config cx)) dates /\ Forall2 (fun d t => get_time_difference eval d = Ret t) dates times /\
    laddered cx RhoLadder (fun p => curve_bumped (cx_exp cx) (fst p) (fst (snd p)) (snd (snd p))) b bp users times dates names s s'.
Proof.
  intros cx s s' C H b eval users. unfold runs, set_rho_structure in H. step H s0 s1 E. apply get_ok in E. destruct E as [-> ->]. fold eval b in H. step H names s1 E. apply pure_ok in E. destruct E as [NA ->]. assert (NA' : all_curve_names (cx_match cx) (cx_insts cx) = ROk names) by congruence. clear NA.
  step H dates s1 E. apply total_ok in E. destruct E as [ED ->]. step H times s1 E. apply total_ok in E. destruct E as [ET ->]. apply map_out_forall2 in ED. apply map_out_forall2 in ET. pose proof (forall2_len _ _ _ _ _ ET) as LE. symmetry in LE.
  pose proof (c173_names (cx_match cx) (cx_insts cx)) as Q. rewrite NA' in Q. destruct Q as (ND & NDU & _ & NM). assert (ND1 : forall n, In n names -> n <> dummy) by (intros n I ->; contradiction).
  exists names, dates, times. split; [exact ND|]. split; [intros n D; rewrite (NM n D); reflexivity|]. split; [exact ED|]. split; [exact ET|].
  rewrite <- (fst_combine _ _ times dates LE) at 1. rewrite <- (snd_combine _ _ times dates LE) at 2.
  refine (ladders_ok cx RhoLadder _ (bump_curve cx) b bp ["Stock"; "Cash"]%string (combine times dates) users _ names _ _ _ ND s s' H).
  - intros k t1 t2 x t y t' K. exact (bump_curve_ok cx k t1 t2 x t y t' K).
  - intros k is I E. split; [|exact (curve_sel cx _ k is (ND1 k I) E)]. apply (coded_sub (cx_insts cx)); [exact C|]. intros i J. apply (curve_sel cx _ k is (ND1 k I) E) in J. destruct J as [J _]. exact J.
  - intros k i (_ & U & _). exact U.
Qed.
(** C190: the same for the amounts of the dividends *)
Theorem c190_div_ladder : forall cx s s', coded (cx_insts cx) -> NoDup (cx_div_keys cx) -> runs (set_div_structure cx) s s' -> let b := cf_div_bump (cx_config cx) in let eval := w_date (mk_world (st_market s)) in let users := fun u i => on_underlying cx ["Stock"; "Cash"]%string i u in
  exists dates, Forall2 (fun t d => add_period eval t = Ret d) (cf_div_tenors (cx_config cx)) dates /\
    laddered cx DivLadder (fun p => div_bumped (fst p) (fst (snd p)) (snd (snd p))) b bp users dates dates (cx_div_keys cx) s s'.
Proof.
  intros cx s s' C ND H b eval users. unfold runs, set_div_structure in H. step H s0 s1 E. apply get_ok in E. destruct E as [-> ->]. fold eval b in H. step H dates s1 E. apply total_ok in E. destruct E as [ED ->]. apply map_out_forall2 in ED.
  exists dates. split; [exact ED|].
  pose proof (ladders_ok cx DivLadder (fun u => ROk (with_underlying (cx_insts cx) u ["Stock"; "Cash"]%string)) bump_div b bp ["Stock"; "Cash"]%string (combine dates dates) users (fun p => div_bumped (fst p) (fst (snd p)) (snd (snd p))) (cx_div_keys cx)) as Q.
  rewrite fst_combine, snd_combine in Q by reflexivity. refine (Q _ _ _ ND s s' H); clear Q.
  - intros k t1 t2 x t y t' K. exact (bump_div_ok k t1 t2 x t y t' K).
  - intros k is I E. injection E as <-. split; [|intro i; apply und_sel]. apply (coded_sub (cx_insts cx)); [exact C|]. intros i J. apply und_sel in J. destruct J as [J _]. exact J.
  - intros k i (_ & U & _). exact U.
Qed.

(** ** In a whole calculation *)
Lemma frame_ladder : forall g (a : act unit), keeps (fun x => ~ ladder_cell g x /\ x <> NpvCell) a -> forall s r s', a s = Ret (r, s') -> (forall i x, reported_npv s i x <-> reported_npv s' i x) /\ (forall i n v, reported_ladder s i g n v -> reported_ladder s' i g n v).
Proof.
  intros g a K s r s' H. pose proof (K s r s' H) as O. split; [intros i x; symmetry; apply (only_npv _ _ _ i x O); intros [_ Q]; apply Q; reflexivity|]. intros i n v (c & V1 & V2). specialize (O (code i)). rewrite V1 in O. unfold reported_ladder, reported. destruct (st_results s' (code i)) as [c'|]; [|contradiction O].
  exists c'. split; [reflexivity|]. rewrite <- V2. destruct O as [_ O]. apply (O (LadderCell g n)). intros [Q _]. apply Q. reflexivity.
Qed.
Definition after_vega_structure (cx : context) : act unit :=
  let c := cx_config cx in
  let* _ := whenever (cf_rho_structure c) (set_rho_structure cx) in
  let* _ := whenever (cf_div_structure c) (set_div_structure cx) in
  whenever (cf_vega_matrix c) (set_vega_matrix cx).
Definition after_rho_structure (cx : context) : act unit :=
  let c := cx_config cx in
  let* _ := whenever (cf_div_structure c) (set_div_structure cx) in
  whenever (cf_vega_matrix c) (set_vega_matrix cx).
Lemma ladder_cell_other : forall g h x, g <> h -> ladder_cell g x -> ~ ladder_cell h x /\ x <> NpvCell.
Proof. intros g h x N H. destruct x as [| | | |g' k| | |]; try contradiction H. cbn in *. subst g'. split; [exact N|discriminate]. Qed.
Lemma keeps_last : forall cx g, keeps (fun x => ~ ladder_cell g x /\ x <> NpvCell) (whenever (cf_vega_matrix (cx_config cx)) (set_vega_matrix cx)).
Proof. intros cx g. apply keeps_whenever. apply (keeps_more _ matrix_cell); [|apply keeps_matrix]. intros x H. destruct x; try contradiction H. split; [intro Q; exact Q|discriminate]. Qed.
Lemma keeps_after_rs : forall cx g, g <> DivLadder -> keeps (fun x => ~ ladder_cell g x /\ x <> NpvCell) (after_rho_structure cx).
Proof. intros cx g N. unfold after_rho_structure. apply keeps_andthen; [apply keeps_whenever|intros _; apply keeps_last]. apply (keeps_more _ (ladder_cell DivLadder)); [|apply keeps_div_structure]. intro x. apply ladder_cell_other. congruence. Qed.
Lemma keeps_after_vs : forall cx, keeps (fun x => ~ ladder_cell VegaLadder x /\ x <> NpvCell) (after_vega_structure cx).
Proof. intros cx. unfold after_vega_structure. apply keeps_andthen; [apply keeps_whenever|intros _; apply keeps_after_rs; discriminate]. apply (keeps_more _ (ladder_cell RhoLadder)); [|apply keeps_rho_structure]. intro x. apply ladder_cell_other. congruence. Qed.
Lemma calculate_ladders : forall cx s s', runs (calculate cx) s s' -> let c := cx_config cx in exists s1 s2 s3 s4, runs (whenever (cf_vega_structure c) (set_vega_structure cx)) s1 s2 /\ runs (whenever (cf_rho_structure c) (set_rho_structure cx)) s2 s3 /\ runs (whenever (cf_div_structure c) (set_div_structure cx)) s3 s4 /\ runs (whenever (cf_vega_matrix c) (set_vega_matrix cx)) s4 s' /\
  after_vega_structure cx s2 = Ret (ROk tt, s') /\ after_rho_structure cx s3 = Ret (ROk tt, s') /\ (forall i x, reported_npv s1 i x <-> reported_npv s2 i x).
Proof.
  intros cx s s' H c. unfold runs, calculate in H. fold c in H. do 7 (step H u0 s0 E0; destruct u0; clear E0 s; rename s0 into s). step H u0 s2 E2. destruct u0. pose proof H as H2. step H u0 s3 E3. destruct u0. pose proof H as H3. step H u0 s4 E4. destruct u0. exists s, s2, s3, s4. do 6 (split; [assumption|]).
  intros i x. pose proof (keeps_whenever _ (cf_vega_structure c) _ (keeps_vega_structure cx) s _ s2 E2) as O. symmetry. apply (only_npv _ _ _ i x O). intro Q. exact Q.
Qed.
Theorem c189_calculated : forall cx s s', cf_rho_structure (cx_config cx) = true -> runs (calculate cx) s s' -> exists s1 s2, runs (set_rho_structure cx) s1 s2 /\ (forall i x, reported_npv s1 i x <-> reported_npv s' i x) /\ (forall i n v, reported_ladder s2 i RhoLadder n v -> reported_ladder s' i RhoLadder n v).
Proof.
  intros cx s s' C H. destruct (calculate_ladders cx s s' H) as (s1 & s2 & s3 & s4 & E2 & E3 & E4 & E5 & A2 & A3 & NP). rewrite C in E3. exists s2, s3. split; [exact E3|]. split; [exact (proj1 (frame_ladder VegaLadder _ (keeps_after_vs cx) _ _ _ A2))|exact (proj2 (frame_ladder RhoLadder _ (keeps_after_rs cx RhoLadder ltac:(discriminate)) _ _ _ A3))].
Qed.
Theorem c190_calculated : forall cx s s', cf_div_structure (cx_config cx) = true -> runs (calculate cx) s s' -> exists s1 s2, runs (set_div_structure cx) s1 s2 /\ (forall i x, reported_npv s1 i x <-> reported_npv s' i x) /\ (forall i n v, reported_ladder s2 i DivLadder n v -> reported_ladder s' i DivLadder n v).
Proof.
  intros cx s s' C H. destruct (calculate_ladders cx s s' H) as (s1 & s2 & s3 & s4 & E2 & E3 & E4 & E5 & A2 & A3 & NP). rewrite C in E4. exists s3, s4. split; [exact E4|]. split; [exact (proj1 (frame_ladder RhoLadder _ (keeps_after_rs cx RhoLadder ltac:(discriminate)) _ _ _ A3))|exact (proj2 (frame_ladder DivLadder _ (keeps_last cx DivLadder) _ _ _ E5))].
Qed.

(** ** The windows *)
Open Scope R_scope.
(** for rising tenors each time up to the last is in exactly one window, a later one
    in none *)
Definition rising (ws : list f32) : Prop := forall i j a b, (i < j)%nat -> nth_error ws i = Some a -> nth_error ws j = Some b -> value a < value b.
Definition window_hits (ws : list f32) (from : option f32) (t : f32) (j : nat) : Prop := exists a b, nth_error (windows from ws) j = Some (a, b) /\ hit_by a b t.
Lemma no_later : forall ws w t j, rising (w :: ws) -> value t <= value w -> ~ window_hits ws (Some w) t j.
Proof.
  induction ws as [|x ws IH]; intros w t j R L (a & b & N & H); [destruct j; discriminate N|]. destruct j as [|j]; cbn in N.
  - injection N as <- <-. destruct H as [H _]. specialize (H w eq_refl). lra.
  - apply (IH x t j); [intros i' j' a' b' I A B; apply (R (Datatypes.S i') (Datatypes.S j') a' b'); [lia|exact A|exact B]| |exists a, b; auto]. pose proof (R 0%nat 1%nat w x ltac:(lia) eq_refl eq_refl). lra.
Qed.
Theorem c189_windows : forall ws t, rising ws ->
  ((exists w, In w ws /\ value t <= value w) -> exists j, window_hits ws None t j /\ forall j', window_hits ws None t j' -> j' = j) /\
  ((forall w, In w ws -> value w < value t) -> forall j, ~ window_hits ws None t j).
Proof.
  intros ws t. assert (G : forall ws from, rising ws -> (forall a, from = Some a -> value a < value t) ->
    ((exists w, In w ws /\ value t <= value w) -> exists j, window_hits ws from t j /\ forall j', window_hits ws from t j' -> j' = j) /\ ((forall w, In w ws -> value w < value t) -> forall j, ~ window_hits ws from t j)).
  { clear ws. induction ws as [|w ws IH]; intros from R F; split.
    - intros (x & [] & _).
    - intros _ j (a & b & N & _). destruct j; discriminate N.
    - assert (R' : rising ws) by (intros i j a b I A B; apply (R (Datatypes.S i) (Datatypes.S j) a b); [lia|exact A|exact B]). intros (x & I & L). destruct (Rle_or_lt (value t) (value w)) as [Q|Q].
      + exists 0%nat. split; [exists from, (Some w); split; [reflexivity|split; [exact F|intros y Y; injection Y as <-; exact Q]]|]. intros [|j] H; [reflexivity|]. exfalso. apply (no_later ws w t j R Q). exact H.
      + destruct (IH (Some w) R' ltac:(intros y Y; injection Y as <-; exact Q)) as [IH1 _]. destruct I as [->|I]; [lra|]. destruct (IH1 (ex_intro _ x (conj I L))) as (j & J1 & J2). exists (Datatypes.S j). split; [exact J1|]. intros [|j'] H.
        * destruct H as (a & b & N & H). cbn in N. injection N as <- <-. destruct H as [_ H]. specialize (H w eq_refl). lra.
        * rewrite (J2 j' H). reflexivity.
    - assert (R' : rising ws) by (intros i j a b I A B; apply (R (Datatypes.S i) (Datatypes.S j) a b); [lia|exact A|exact B]). intros A j H. assert (Q : value w < value t) by (apply A; left; reflexivity). destruct j as [|j].
      + destruct H as (a & b & N & H). cbn in N. injection N as <- <-. destruct H as [_ H]. specialize (H w eq_refl). lra.
      + destruct (IH (Some w) R' ltac:(intros y Y; injection Y as <-; exact Q)) as [_ IH2]. apply (IH2 ltac:(intros y Y; apply A; right; exact Y) j). exact H. }
  intro R. apply (G ws None R). intros a Q. discriminate Q.
Qed.
(** a window bumped up and down again: rates outside are as they were, those inside
    within two roundings *)
Theorem c189_restored : forall f_exp t1 t2 b c c1 c2, reached f_exp c -> (forall x, t1 = Some x -> finite x) -> (forall x, t2 = Some x -> finite x) -> finite b -> (forall x y, t1 = Some x -> t2 = Some y -> value x <= value y) -> (forall x, t1 = Some x -> value x <= 1000) -> (forall y, t2 = Some y -> -1000 <= value y) ->
  Rabs (value b) <= 100 -> bump_times f_exp c t1 t2 b = Ret (ROk tt, c1) -> Forall small_rate (cv_rates c1) -> bump_times f_exp c1 t1 t2 (gneg b) = Ret (ROk tt, c2) ->
  cv_times c2 = cv_times c /\ forall i t r, nth_error (cv_times c) i = Some t -> nth_error (cv_rates c) i = Some r -> exists r', nth_error (cv_rates c2) i = Some r' /\ finite r' /\ (~ hit_by t1 t2 t -> value r' = value r) /\ (hit_by t1 t2 t -> Rabs (value r' - value r) <= (0.5 + 2 * Rabs (value b)) * (3 / 2 ^ 24)).
Proof.
  intros f_exp t1 t2 b c c1 c2 R F1 F2 F O X1 X2 B E1 S1 E2. destruct (c140_bump f_exp c t1 t2 b R F1 F2 F O X1 X2) as (x1 & Y1 & T1 & Q1). assert (x1 = c1) by congruence. subst x1. assert (R1 : reached f_exp c1) by exact (re_times f_exp c t1 t2 b _ c1 R E1 S1).
  destruct (fin_neg 24 128 b _ (conj F eq_refl)) as [Fn _]. destruct (c140_bump f_exp c1 t1 t2 (gneg b) R1 F1 F2 Fn O X1 X2) as (x2 & Y2 & T2 & Q2). assert (x2 = c2) by congruence. subst x2. split; [congruence|]. intros i t r Ht Hr. destruct (Q1 i t r Ht Hr) as (r1 & N1 & H1 & K1 & _). rewrite <- T1 in Ht. destruct (Q2 i t r1 Ht N1) as (r2 & N2 & H2 & K2 & _). exists r2. split; [exact N2|].
  pose proof (so_rates _ c (reached_sound _ c R)) as SR. rewrite List.Forall_forall in SR. destruct (SR r (nth_error_In _ _ Hr)) as [Fr Br].
  assert (D : hit_by t1 t2 t \/ ~ hit_by t1 t2 t). { unfold hit_by. destruct t1 as [x|], t2 as [y|].
    - destruct (Rlt_dec (value x) (value t)) as [P|P]; [destruct (Rle_dec (value t) (value y)) as [P'|P']|]; [left; split; intros z Z; injection Z as <-; assumption|right; intros [_ Q]; apply P'; exact (Q y eq_refl)|right; intros [Q _]; apply P; exact (Q x eq_refl)].
    - destruct (Rlt_dec (value x) (value t)) as [P|P]; [left; split; intros z Z; [injection Z as <-; assumption|discriminate Z]|right; intros [Q _]; apply P; exact (Q x eq_refl)].
    - destruct (Rle_dec (value t) (value y)) as [P'|P']; [left; split; intros z Z; [discriminate Z|injection Z as <-; assumption]|right; intros [_ Q]; apply P'; exact (Q y eq_refl)].
    - left. split; intros z Z; discriminate Z. }
  destruct D as [D|D].
  - rewrite (H2 D), (H1 D). destruct (there_and_back r b 0.5 Fr F ltac:(lra) ltac:(lra)) as [P1 P2]. split; [exact P1|]. split; [intro; contradiction|]. intros _. exact P2.
  - destruct (K2 D) as [G1 G2]. destruct (K1 D) as [G3 G4]. split; [exact G1|]. split; [intros _; congruence|]. intro; contradiction.
Qed.
Close Scope R_scope.

(** ** Examples *)
Definition ex_tenors : config := Config true false false false false false false false false true true false tiny_bump tiny_bump tiny_bump tiny_bump tiny_bump tiny_bump tiny_bump 1 [str "1D"; str "3M"; str "1Y"; str "2Y"] [] [str "1D"; str "3M"; str "1Y"; str "2Y"] [].
Definition ex_ladder_cx : context := Context [ex_opt "O1" 64] (fun _ => Some ex_sum_pricer) (cx_match ex_full_cx) ex_tenors ["O1"]%string ["a"]%string (fun l => l) (fun l => l) rise.
Definition near_zero (x : option f32) : bool := near_to x 0 1000000.
(** the pricer looks at the rate of today and the dividend in 53 days; the option is
    dead after the third tenor *)
Definition ladders_check (s : state) : bool :=
  match st_results s "O1" with
  | Some c =>
      match ca_ladder c RhoLadder "c", ca_ladder c DivLadder "a" with
      | Some [r0; r1; r2; r3], Some [d0; d1; d2; d3] => near_to (Some r0) 640 100000 && near_zero (Some r1) && near_zero (Some r2) && near_zero (Some r3) && near_zero (Some d0) && near_to (Some d1) 640 100000 && near_zero (Some d2) && near_zero (Some d3)
      | _, _ => false
      end
  | None => false
  end.
Example c189_hypotheses_met : exists s s', with_instruments ex_full (cx_insts ex_ladder_cx) = ROk s /\ coded (cx_insts ex_ladder_cx) /\ NoDup (cx_div_keys ex_ladder_cx) /\ runs (calculate ex_ladder_cx) s s' /\ on_curve ex_ladder_cx ["Stock"; "Cash"]%string (ex_opt "O1" 64) "c" /\ on_underlying ex_ladder_cx ["Stock"; "Cash"]%string (ex_opt "O1" 64) "a" /\ ladders_check s' = true.
Proof.
  eexists. destruct (ends_well_ok (calculate ex_ladder_cx (match with_instruments ex_full (cx_insts ex_ladder_cx) with ROk s => s | RErr => State ex_full (fun _ => None) [] end)) ladders_check) as (s' & R & T); [vm_compute; reflexivity|].
  exists s'. split; [reflexivity|]. split; [apply coded_nodup; repeat constructor; intros []|]. split; [repeat constructor; intros []|]. split; [exact R|].
  split; [split; [left; reflexivity|]; split; [cbn; intuition discriminate|]; split; [discriminate|]; exact (need_collateral (cx_match ex_ladder_cx) (ex_opt "O1" 64) "a" (or_introl eq_refl))|]. split; [|exact T]. split; [left; reflexivity|]. split; [cbn; intuition discriminate|left; reflexivity].
Qed.

Print Assumptions c189_rho_ladder.
Print Assumptions c190_div_ladder.
Print Assumptions c189_calculated.
Print Assumptions c190_calculated.
Print Assumptions c189_windows.
Print Assumptions c189_restored.
