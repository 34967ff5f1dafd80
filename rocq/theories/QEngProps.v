(** QEngProps.v -- C182 to C184: what the engine reports as price and value, its
    deltas and gammas. *)
From Coq Require Import ZArith Arith Ascii String.
From Coq Require Import List Bool Lia.
From Flocq Require Import Core IEEE754.BinarySingleNaN.
From Verif Require Import Base FloatModel KrxModel QDateModel QYearModel QPeriodModel QFindModel QInterpModel QDivModel QCurveModel QMoneyModel QBondModel QSwapModel QFutModel QInstModel QInstSpec QInstProps QMatchProps QVolModel QEngModel QEngSpec QEngProofs QEngFrame.
Import ListNotations.
Open Scope Z_scope.

(** C182: whatever else is asked for, the price, the value and the cash flows a
    successful calculation reports for an instrument are its pricer's in the market
    as it was before anything was bumped *)
Theorem c182_value : forall cx m s s', with_instruments m (cx_insts cx) = ROk s -> NoDup (map code (cx_insts cx)) -> (forall k, In k (cx_keys cx) <-> In k (map code (cx_insts cx))) -> cf_npv (cx_config cx) = true ->
  runs (calculate cx) s s' ->
  forall i, In i (cx_insts cx) -> exists r fl, priced_result cx m i r /\ expected_coupons (cx_coupons cx) r = ROk fl /\
    reported s' i (fun c => ca_unit c = notional i /\ ca_npv c = Some r /\ ca_value c = Some (gmul (nr_npv r) (notional i)) /\ ca_cash c = Some fl).
Proof.
  intros cx m s s' W ND K N H i I. apply coded_nodup in ND. destruct (with_instruments_ok _ _ _ W) as (_ & M & A & _ & R & _). specialize (R ND). unfold runs in H. rewrite calculate_split in H. rewrite N in H. cbn [whenever] in H. step H u0 s1 E1. destruct u0.
  destruct (npv_stage cx m s s1) as (M1 & A1 & O1 & V1).
  { rewrite A. exact ND. } { exact M. } { intro k. rewrite A, (K k), in_map_iff. split; intros (x & X & Y); exists x; auto. } { exact E1. }
  rewrite A in *. destruct (V1 i I) as (r & PR & (c & E & NR & L & fl & EF & CF)). exists r, fl. split; [exact PR|]. split; [exact EF|].
  pose proof (keeps_after cx s1 (ROk tt) s' H) as O2.
  destruct (only_reads _ _ _ _ _ O2 E) as (c' & E' & U & S). exists c'. split; [exact E'|]. destruct (only_back _ _ _ _ _ O1 E) as (c0 & E0 & U0 & _). rewrite (R i I) in E0. apply some_inj in E0. subst c0. cbn in U0.
  pose proof (S NpvCell (fun x => x)) as S1. pose proof (S ValueCell (fun x => x)) as S2. pose proof (S CashCell (fun x => x)) as S3. cbn in S1, S2, S3. split; [congruence|]. split; [congruence|]. split; [congruence|congruence].
Qed.
(** and if the calculation fails after the prices, what they gave stays *)
Theorem c182_stays : forall cx s s1 r s', cf_npv (cx_config cx) = true -> runs (let* _ := set_npv_results cx in let* _ := set_values cx in set_cashflow_inbetween cx) s s1 -> calculate cx s = Ret (r, s') ->
  only (fun _ x => x <> NpvCell /\ x <> ValueCell /\ x <> CashCell) s1 s'.
Proof.
  intros cx s s1 r s' N H1 H. rewrite calculate_split in H. rewrite N in H. unfold andthen in H at 1. cbn [whenever] in H. rewrite H1 in H. apply (only_weaken (fun _ => later)). { intros k x L. destruct x; cbn in L; try contradiction; repeat split; discriminate. }
  exact (keeps_after cx s1 r s' H).
Qed.
(** no engine for nothing, nor with anything matured *)
Theorem c182_refused : forall m is, is = [] \/ (exists i x, In i is /\ maturity i = Some x /\ instant x <= instant (w_date (mk_world m))) -> with_instruments m is = RErr.
Proof.
  intros m is H. destruct (with_instruments m is) as [s|] eqn:W; [|reflexivity]. destruct (with_instruments_ok _ _ _ W) as (NE & _ & _ & MA & _). destruct H as [H|(i & x & I & X & L)]; [contradiction|]. specialize (MA i x I X). lia.
Qed.

(** ** Examples *)
Definition ex_day (n : Z) : odt := Odt n 0 0.
Definition ex_opt (name : string) (n : Z) : instrument := Inst "option" name Ccy_KRW (gof_Z n) (ex_day 19900) (KOption Call "a" Ccy_KRW false None).
Definition ex_fixed : instrument := Inst "bond" "B1" Ccy_KRW (gof_Z 3) (ex_day 19900) (KBond "ktb" 1 1 None).
(** "a" stands at 100, in KRW *)
Definition ex_mkt : market := Market (World (ex_day 19797) [MarketPrice (gof_Z 100) (ex_day 19797) None] [] [] []) (fun u => if String.eqb u "a" then Some 0%nat else None) (fun _ => None) (fun _ => None) (fun _ => None).
(** the square of the price of "a"; 7 *)
Definition ex_square (m : market) : outcome (rresult f32) := match equity m "a" with Some p => Ret (ROk (gmul (mp_value p) (mp_value p))) | None => Ret RErr end.
Definition ex_sq_pricer : pricer := Pricer (fun m _ => ex_square m) (fun m _ => let? x := ex_square m in Ret (ROk (result_of_npv x))) own_fx.
Definition ex_seven : pricer := Pricer (fun _ _ => Ret (ROk (gof_Z 7))) (fun _ _ => Ret (ROk (result_of_npv (gof_Z 7)))) own_fx.
Definition ex_config (delta : bool) : config :=
  Config true true delta delta false false false false false false false false (gdiv (gof_Z 1) (gof_Z 4)) (gdiv (gof_Z 1) (gof_Z 4)) pct pct pct bp bp 1 [] [] [] [].
Definition ex_cx (is : list instrument) (keys : list string) (delta : bool) : context :=
  Context is (fun k => if String.eqb k "B1" then Some ex_seven else Some ex_sq_pricer) (MatchParameter (fun _ => None) (fun _ => None) (fun _ => None) (fun _ => None) (fun _ => None) (fun _ => None)) (ex_config delta) keys [] (fun l => l) (fun l => l) (fun x => x).
Definition ends_well {A} (o : outcome (rresult A * state)) (t : state -> bool) : bool := match o with Ret (ROk _, s) => t s | _ => false end.
Lemma ends_well_ok : forall o t, ends_well o t = true -> exists s', o = Ret (ROk tt, s') /\ t s' = true.
Proof. intros [[[[]|] s']| |] t H; try discriminate H. exists s'. auto. Qed.
Definition is_at (s : state) (k : string) (f : calc -> option f32) (x : f32) : bool := match st_results s k with Some c => match f c with Some y => geq y x | None => false end | None => false end.

Example c182_hypotheses_met : exists s s', with_instruments ex_mkt [ex_opt "O1" 10; ex_fixed] = ROk s /\ NoDup (map code [ex_opt "O1" 10; ex_fixed]) /\
  runs (calculate (ex_cx [ex_opt "O1" 10; ex_fixed] ["B1"; "O1"]%string true)) s s' /\ is_at s' "O1" ca_value (gof_Z 100000) && is_at s' "B1" ca_value (gof_Z 21) = true.
Proof.
  eexists. destruct (ends_well_ok (calculate (ex_cx [ex_opt "O1" 10; ex_fixed] ["B1"; "O1"]%string true) (match with_instruments ex_mkt [ex_opt "O1" 10; ex_fixed] with ROk s => s | RErr => State ex_mkt (fun _ => None) [] end))
    (fun s => is_at s "O1" ca_value (gof_Z 100000) && is_at s "B1" ca_value (gof_Z 21))) as (s' & R & T); [vm_compute; reflexivity|].
  exists s'. split; [reflexivity|]. split; [repeat constructor; cbn; intuition discriminate|]. split; [exact R|exact T].
Qed.
(** two instruments of one code have one report: the first is given the value of
    the second *)
Theorem c182_same_code_refuted : ~ forall cx m s s', with_instruments m (cx_insts cx) = ROk s -> (forall k, In k (cx_keys cx) <-> In k (map code (cx_insts cx))) -> cf_npv (cx_config cx) = true -> runs (calculate cx) s s' ->
  forall i, In i (cx_insts cx) -> reported s' i (fun c => ca_unit c = notional i).
Proof.
  intro H. set (cx := ex_cx [ex_opt "O1" 10; ex_opt "O1" 11] ["O1"]%string false).
  destruct (ends_well_ok (calculate cx (match with_instruments ex_mkt (cx_insts cx) with ROk s => s | RErr => State ex_mkt (fun _ => None) [] end)) (fun s => is_at s "O1" (fun c => Some (ca_unit c)) (gof_Z 11))) as (s' & R & T); [vm_compute; reflexivity|].
  destruct (H cx ex_mkt _ s' eq_refl ltac:(intro k; cbn; tauto) eq_refl R (ex_opt "O1" 10) ltac:(left; reflexivity)) as (c & E & U). unfold is_at in T. change (code (ex_opt "O1" 10)) with "O1"%string in E. rewrite E in T. rewrite U in T. vm_compute in T. discriminate T.
Qed.
(** an engine that has calculated a greek cannot calculate again: only the
    instruments of the last underlying are priced *)
Theorem c182_twice_refuted : ~ forall cx m s s', with_instruments m (cx_insts cx) = ROk s -> NoDup (map code (cx_insts cx)) -> (forall k, In k (cx_keys cx) <-> In k (map code (cx_insts cx))) -> runs (calculate cx) s s' -> exists s2, runs (calculate cx) s' s2.
Proof.
  intro H. set (cx := ex_cx [ex_opt "O1" 10; ex_fixed] ["B1"; "O1"]%string true).
  assert (T : forall s0 s', runs (calculate cx) s0 s' -> ends_well (calculate cx s0) (fun s => match calculate cx s with Ret (RErr, _) => true | _ => false end) = true -> ~ exists s2, runs (calculate cx) s' s2).
  { intros s0 s' R E (s2 & R2). unfold runs in R. rewrite R in E. cbn [ends_well] in E. unfold runs in R2. rewrite R2 in E. discriminate E. }
  destruct (ends_well_ok (calculate cx (match with_instruments ex_mkt (cx_insts cx) with ROk s => s | RErr => State ex_mkt (fun _ => None) [] end)) (fun s => true)) as (s' & R & _); [vm_compute; reflexivity|].
  apply (T _ s' R); [vm_compute; reflexivity|]. apply (H cx ex_mkt _ s' eq_refl); [repeat constructor; cbn; intuition discriminate|intro k; cbn; tauto|exact R].
Qed.

Print Assumptions c182_value.
Print Assumptions c182_stays.
Print Assumptions c182_refused.
Print Assumptions c182_same_code_refuted.
Print Assumptions c182_twice_refuted.
