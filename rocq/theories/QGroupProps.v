(** QGroupProps.v -- C200: how a portfolio is split does not change what is reported for
    an instrument. *)
From Coq Require Import ZArith Ascii String.
From Coq Require Import List Bool Lia Permutation Relations.
From Flocq Require Import Core IEEE754.BinarySingleNaN.
From Verif Require Import Base FloatModel KrxModel QDateModel QInterpModel QDivModel QCurveModel QMoneyModel QBondModel QSwapModel QSwapProps QFutModel QInstModel QInstSpec QInstProps QMatchProps QVolModel QEngModel QEngSpec QEngProofs QEngProps QEngDeltaProps QEngBumpProps QLoadModel QLoadSpec QLoadProofs QLoadProps QPricerProps QGenModel QGenProofs QGenProps QGroupProofs.
Import ListNotations.
Open Scope Z_scope.

(** two reports agree in the price, the value and, for the underlyings of the instrument,
    delta and gamma *)
Definition same_figures (i : instrument) (c1 c2 : calc) : Prop :=
  ca_unit c1 = ca_unit c2 /\ ca_npv c1 = ca_npv c2 /\ ca_value c1 = ca_value c2.
Definition same_deltas (i : instrument) (c1 c2 : calc) : Prop :=
  (linear i -> ca_greek c1 Delta (code i) = ca_greek c2 Delta (code i) /\ ca_greek c1 Gamma (code i) = ca_greek c2 Gamma (code i)) /\
  (~ linear i -> forall u, In u (underlyings i) -> ca_greek c1 Delta u = ca_greek c2 Delta u /\ ca_greek c1 Gamma u = ca_greek c2 Gamma u).

Section Groups.
Context (fo : formulas) (se : setup).
Lemma in_engine : forall is r i, may fo se is (ROk r) -> NoDup (map code is) -> In i is -> exists sh l w cx s s', 
  with_parameter_data (se_exp se) (se_eval se) (se_data se) (se_match se) (se_sticky se) (cf_vega_tenors (se_config se)) (cf_moneyness (se_config se)) sh is = Ret (ROk l) /\
  create_pricer (se_analytic se) l (se_match se) i = Ret (ROk w) /\ with_instruments (ld_market l) (cx_insts cx) = ROk s /\ runs (calculate cx) s s' /\ r = st_results s' /\ cx_insts cx = is /\ cx_config cx = se_config se /\ cx_pricer cx (code i) = Some (pricer_of fo w) /\ (forall k, In k (cx_keys cx) <-> In k (map code is)).
Proof.
  intros is r i (o & OK & H) N I. destruct (group_steps _ _ _ _ _ H) as (s & l & ws & s' & W & L & P & R & E). destruct (c198_each (se_match se) is (se_analytic se) l ws P) as [F A]. destruct (In_nth_error _ _ I) as [j J]. destruct (A j i J) as (w & CW & NW).
  exists (or_shuffle o), l, w. eexists. exists s, s'. split; [exact L|]. split; [exact CW|]. split; [|split; [exact R|]]; [exact W|]. split; [exact E|]. split; [reflexivity|]. split; [reflexivity|]. split; [|exact (proj2 (ok_keys _ _ _ OK))]. cbn [cx_pricer]. apply pricer_map_at; [rewrite F; exact N|exact (nth_error_In _ _ NW)].
Qed.
End Groups.

(** the two engines may compute with formulas of their own, as long as they price this
    instrument alike *)
Section TwoGroups.
Context (fo1 fo2 : formulas) (se : setup) (is1 is2 : list instrument) (r1 r2 : string -> option calc) (i : instrument).
Hypotheses (S1 : forall v, fo_npv fo1 v i = fo_npv fo2 v i) (S2 : forall v, fo_result fo1 v i = fo_result fo2 v i).
Hypotheses (M1 : may fo1 se is1 (ROk r1)) (M2 : may fo2 se is2 (ROk r2)) (N1 : NoDup (map code is1)) (N2 : NoDup (map code is2)) (D1 : ~ asked is1 dummy) (D2 : ~ asked is2 dummy) (I1 : In i is1) (I2 : In i is2).

Theorem c200_value : cf_npv (se_config se) = true -> exists c1 c2, r1 (code i) = Some c1 /\ r2 (code i) = Some c2 /\ same_figures i c1 c2.
Proof using S1 S2 M1 M2 N1 N2 D1 D2 I1 I2.
  intro NP. destruct (in_engine fo1 se is1 r1 i M1 N1 I1) as (sh1 & l1 & w1 & cx1 & s1 & s1' & L1 & C1 & W1 & R1 & E1 & G1 & F1 & P1 & K1). destruct (in_engine fo2 se is2 r2 i M2 N2 I2) as (sh2 & l2 & w2 & cx2 & s2 & s2' & L2 & C2 & W2 & R2 & E2 & G2 & F2 & P2 & K2).
  destruct (c182_value cx1 (ld_market l1) s1 s1' W1) with (i := i) as (x1 & fl1 & (p1 & Q1 & V1) & _ & c1 & H1 & U1 & A1 & B1 & _); [rewrite G1; exact N1|rewrite G1; exact K1|rewrite F1; exact NP|exact R1|rewrite G1; exact I1|].
  destruct (c182_value cx2 (ld_market l2) s2 s2' W2) with (i := i) as (x2 & fl2 & (p2 & Q2 & V2) & _ & c2 & H2 & U2 & A2 & B2 & _); [rewrite G2; exact N2|rewrite G2; exact K2|rewrite F2; exact NP|exact R2|rewrite G2; exact I2|].
  exists c1, c2. rewrite E1, E2. split; [exact H1|]. split; [exact H2|]. assert (X : x1 = x2).
  { rewrite P1 in Q1. rewrite P2 in Q2. apply some_inj in Q1, Q2. subst p1 p2. cbn [pricer_of pr_result] in V1, V2. pose proof (view_same _ _ _ _ _ _ _ sh1 sh2 is1 is2 l1 l2 L1 L2 _ _ _ _ i w1 w2 (loaded_alike _ _ _ _ _ _ _ _ _ _ _ _ _ L1 L2) eq_refl eq_refl D1 D2 I1 I2 C1 C2) as V. rewrite V in V1. rewrite S2 in V1. congruence. }
  subst x2. split; [congruence|]. split; congruence.
Qed.
Theorem c200_delta : cf_npv (se_config se) = true -> cf_delta (se_config se) = true -> exists c1 c2, r1 (code i) = Some c1 /\ r2 (code i) = Some c2 /\ same_deltas i c1 c2.
Proof using S1 S2 M1 M2 N1 N2 D1 D2 I1 I2.
  intros NP DE. destruct (in_engine fo1 se is1 r1 i M1 N1 I1) as (sh1 & l1 & w1 & cx1 & s1 & s1' & L1 & C1 & W1 & R1 & E1 & G1 & F1 & P1 & K1). destruct (in_engine fo2 se is2 r2 i M2 N2 I2) as (sh2 & l2 & w2 & cx2 & s2 & s2' & L2 & C2 & W2 & R2 & E2 & G2 & F2 & P2 & K2).
  destruct (c184_calculated cx1 (ld_market l1) s1 s1' W1) with (i := i) as (x1 & (p1 & Q1 & V1) & LI1 & NL1); [rewrite G1; exact N1|rewrite G1; exact K1|rewrite F1; exact NP|rewrite F1; exact DE|exact R1|rewrite G1; exact I1|].
  destruct (c184_calculated cx2 (ld_market l2) s2 s2' W2) with (i := i) as (x2 & (p2 & Q2 & V2) & LI2 & NL2); [rewrite G2; exact N2|rewrite G2; exact K2|rewrite F2; exact NP|rewrite F2; exact DE|exact R2|rewrite G2; exact I2|].
  destruct (c200_value NP) as (c1 & c2 & X1 & X2 & _). exists c1, c2. split; [exact X1|]. split; [exact X2|]. rewrite E1 in X1. rewrite E2 in X2. clear E1 E2.
  assert (VS : forall m1 m2, alike is1 is2 l1 l2 m1 m2 -> mk_curve m1 = mk_curve (ld_market l1) -> mk_curve m2 = mk_curve (ld_market l2) -> view_of m1 w1 = view_of m2 w2) by (intros m1 m2 AL A B; exact (view_same _ _ _ _ _ _ _ sh1 sh2 is1 is2 l1 l2 L1 L2 _ _ _ _ i w1 w2 AL A B D1 D2 I1 I2 C1 C2)).
  pose proof (loaded_alike _ _ _ _ _ _ _ _ _ _ _ _ _ L1 L2) as AL. assert (X : x1 = x2). { rewrite P1 in Q1. rewrite P2 in Q2. apply some_inj in Q1, Q2. subst p1 p2. cbn [pricer_of pr_result] in V1, V2. rewrite (VS _ _ AL eq_refl eq_refl), S2 in V1. congruence. }
  subst x2. assert (RG : forall g u y z, reported_greek s1' i g u y -> reported_greek s2' i g u z -> y = z -> ca_greek c1 g u = ca_greek c2 g u).
  { intros g u y z (a & A1 & A2) (b & B1 & B2) YZ. congruence. }
  split.
  - intro LN. destruct (LI1 LN) as [A B]. destruct (LI2 LN) as [A' B']. split; [exact (RG _ _ _ _ A A' eq_refl)|exact (RG _ _ _ _ B B' eq_refl)].
  - intros LN u U. destruct (NL1 LN u U) as (e1 & up1 & dn1 & mu1 & md1 & EQ1 & PU1 & PD1 & PP1 & PN1 & A & B). destruct (NL2 LN u U) as (e2 & up2 & dn2 & mu2 & md2 & EQ2 & PU2 & PD2 & PP2 & PN2 & A' & B').
    assert (T1 : asked is1 u) by (exists i; auto). assert (T2 : asked is2 u) by (exists i; auto). assert (VE : mp_value e1 = mp_value e2). { pose proof (al_equity _ _ _ _ _ _ AL u T1 T2) as Q. unfold equity_view in Q. rewrite EQ1, EQ2 in Q. cbn [option_map] in Q. unfold price_view in Q. congruence. }
    rewrite F1 in *. rewrite F2 in *. rewrite <- VE in PU2, PD2.
    assert (PR : forall x m1 m2 y z, price_set (ld_market l1) u x m1 -> price_set (ld_market l2) u x m2 -> priced cx1 m1 i y -> priced cx2 m2 i z -> y = z).
    { intros x m1 m2 y z Z1 Z2 (q1 & Y1 & O1) (q2 & Y2 & O2). rewrite P1 in Y1. rewrite P2 in Y2. apply some_inj in Y1, Y2. subst q1 q2. cbn [pricer_of pr_npv] in O1, O2. pose proof (set_alike _ _ _ _ _ _ _ _ _ _ _ _ _ L1 L2 u x m1 m2 Z1 Z2 T1 T2) as AL'.
      assert (MC1 : mk_curve m1 = mk_curve (ld_market l1)) by (destruct Z1 as (? & ? & _ & _ & _ & _ & _ & _ & _ & _ & _ & Q & _); exact Q). assert (MC2 : mk_curve m2 = mk_curve (ld_market l2)) by (destruct Z2 as (? & ? & _ & _ & _ & _ & _ & _ & _ & _ & _ & Q & _); exact Q). rewrite (VS _ _ AL' MC1 MC2), S1 in O1. congruence. }
    assert (up1 = up2) by exact (PR _ _ _ _ _ PU1 PU2 PP1 PP2). assert (dn1 = dn2) by exact (PR _ _ _ _ _ PD1 PD2 PN1 PN2). subst up2 dn2. split; [exact (RG _ _ _ _ A A' eq_refl)|exact (RG _ _ _ _ B B' eq_refl)].
Qed.
End TwoGroups.

(** two generators with the same portfolio and different categories *)
Theorem c200_categories : forall fo se g1 g2 h1 h2 g1' g2', ge_insts g1 = ge_insts g2 -> gen_distribute g1 = (ROk tt, h1) -> gen_distribute g2 = (ROk tt, h2) -> calculates (may fo se) h1 (ROk tt) g1' -> calculates (may fo se) h2 (ROk tt) g2' ->
  NoDup (map code (ge_insts g1)) -> ~ asked (ge_insts g1) dummy -> cf_npv (se_config se) = true ->
  forall i, In i (ge_insts g1) -> exists c1 c2, ge_results g1' (code i) = Some c1 /\ ge_results g2' (code i) = Some c2 /\ same_figures i c1 c2 /\ (cf_delta (se_config se) = true -> same_deltas i c1 c2).
Proof.
  intros fo se g1 g2 h1 h2 g1' g2' EI X1 X2 R1 R2 N D NP i I.
  assert (K : forall g h g', gen_distribute g = (ROk tt, h) -> calculates (may fo se) h (ROk tt) g' -> NoDup (map code (ge_insts g)) -> ~ asked (ge_insts g) dummy -> In i (ge_insts g) -> exists is rs, may fo se is (ROk rs) /\ NoDup (map code is) /\ ~ asked is dummy /\ In i is /\ ge_results g' (code i) = rs (code i)).
  { clear. intros g h g' X R N D I. unfold gen_distribute in X. destruct (distribute_insts (ge_cats g) (ge_insts g)) as [gs|] eqn:DI; [|discriminate X]. apply (f_equal snd) in X. cbn [snd] in X. subst h. destruct (c175_groups _ _ _ DI) as [P _].
    assert (NC : NoDup (map code (concat gs))) by (apply (Permutation_NoDup (Permutation_sym (Permutation_map code P))); exact N). destruct (c199_each fo se _ _ R NC) as [A _]. cbn [ge_groups] in A. pose proof (Permutation_in i (Permutation_sym P) I) as J. apply in_concat in J. destruct J as (is & G & J). destruct (A is G) as (rs & M & Q). exists is, rs.
    split; [exact M|]. split; [|split; [|split; [exact J|exact (proj1 (Q i J))]]].
    - clear -G NC. induction gs as [|x gs IH]; [contradiction G|]. cbn [concat] in NC. rewrite map_app in NC. destruct G as [->|G]; [exact (nodup_fst _ _ _ NC)|exact (IH (nodup_snd _ _ _ NC) G)].
    - intros (j & Jj & U). apply D. exists j. split; [|exact U]. apply (Permutation_in j P). apply in_concat. exists is. auto. }
  destruct (K g1 h1 g1' X1 R1 N D I) as (is1 & rs1 & M1 & ND1 & DD1 & J1 & Q1). rewrite EI in N, D, I. destruct (K g2 h2 g2' X2 R2 N D I) as (is2 & rs2 & M2 & ND2 & DD2 & J2 & Q2).
  destruct (c200_value fo fo se is1 is2 rs1 rs2 i (fun _ => eq_refl) (fun _ => eq_refl) M1 M2 ND1 ND2 DD1 DD2 J1 J2 NP) as (c1 & c2 & A1 & A2 & A3). exists c1, c2. rewrite Q1, Q2. split; [exact A1|]. split; [exact A2|]. split; [exact A3|]. intro DE.
  destruct (c200_delta fo fo se is1 is2 rs1 rs2 i (fun _ => eq_refl) (fun _ => eq_refl) M1 M2 ND1 ND2 DD1 DD2 J1 J2 NP DE) as (b1 & b2 & B1 & B2 & B3). assert (b1 = c1) by congruence. assert (b2 = c2) by congruence. subst. exact B3.
Qed.

(** ** Examples: bonds priced at the square of the days they have left *)
Definition ex_bond (name : string) (n day : Z) : instrument := Inst "bond" name Ccy_KRW (gof_Z n) (ex_day day) (KBond "ktb" 1 1 None).
Definition ex_days_left (v : view) (i : instrument) : f32 := match maturity i with Some m => gof_Z ((od_day m - od_day (vw_date v)) * (od_day m - od_day (vw_date v))) | None => gof_Z 1 end.
Definition ex_formulas : formulas := Formulas (fun v i => Ret (ROk (ex_days_left v i))) (fun v i => Ret (ROk (result_of_npv (ex_days_left v i)))) (fun _ i npv => Ret (ROk [(ccy i, npv)])).
Definition ex_gen_config : config := Config true false true true false false false true false false false false (gdiv (gof_Z 1) (gof_Z 4)) (gdiv (gof_Z 1) (gof_Z 4)) pct pct pct bp bp 5 [] [list_ascii_of_string "1Y"; list_ascii_of_string "2Y"] [] [gof_Z 1; gof_Z 2].
Definition ex_setup : setup := Setup (ex_day 19797) ex_gen_config StickyToMoneyness true ex_match ex_data rise.
Definition ex_orders (keys : list string) : orders := Orders keys [] (fun x => x) (fun x => x) (fun x => x).
Definition is_report (k : string) (t : calc -> bool) (o : outcome (rresult (string -> option calc))) : bool := match o with Ret (ROk r) => match r k with Some c => t c | None => false end | _ => false end.
Lemma is_report_ok : forall k t o, is_report k t o = true -> exists r c, o = Ret (ROk r) /\ r k = Some c /\ t c = true.
Proof. intros k t [[r|]| |] H; try discriminate H. cbn in H. destruct (r k) as [c|] eqn:E; [|discriminate H]. exists r, c. auto. Qed.
Lemma ex_orders_ok : forall is keys, NoDup keys -> (forall k, In k keys <-> In k (map code is)) -> (forall i, In i is -> underlyings i = []) -> orders_ok ex_setup is (ex_orders keys).
Proof. intros is keys N K U. split; cbn; auto. split; [constructor|]. intro u. split; [intros []|]. intros ((i & I & J) & _). rewrite (U i I) in J. contradiction J. Qed.
Definition theta_under (x : Z) (c : calc) : bool := match ca_theta c with Some v => gle v (gof_Z x) | None => false end.
Definition ex_b1 : instrument := ex_bond "B1" 100 19801.
Definition ex_b2 : instrument := ex_bond "B2" 100 19798.
(** refuted: theta depends on what else is in the group: with a bond that matures
    tomorrow, the others are moved to tomorrow only, and their theta is then another *)
Theorem c200_theta_refuted : ~ forall fo se is1 is2 r1 r2 i c1 c2, may fo se is1 (ROk r1) -> may fo se is2 (ROk r2) -> NoDup (map code is1) -> NoDup (map code is2) -> ~ asked is1 dummy -> ~ asked is2 dummy -> In i is1 -> In i is2 -> r1 (code i) = Some c1 -> r2 (code i) = Some c2 -> ca_theta c1 = ca_theta c2.
Proof.
  intro H. destruct (is_report_ok "B1" (fun c => theta_under (-390) c && negb (theta_under (-600) c)) (group_run ex_formulas ex_setup (ex_orders ["B1"%string]) [ex_b1])) as (r1 & c1 & G1 & E1 & T1); [vm_compute; reflexivity|].
  destruct (is_report_ok "B1" (theta_under (-600)) (group_run ex_formulas ex_setup (ex_orders ["B1"; "B2"]%string) [ex_b1; ex_b2])) as (r2 & c2 & G2 & E2 & T2); [vm_compute; reflexivity|].
  assert (A : ca_theta c1 = ca_theta c2).
  { apply (H ex_formulas ex_setup [ex_b1] [ex_b1; ex_b2] r1 r2 ex_b1 c1 c2).
    - exists (ex_orders ["B1"%string]). split; [apply ex_orders_ok; [repeat constructor; cbn; tauto|reflexivity|]|exact G1]. intros i [<-|[]]; reflexivity.
    - exists (ex_orders ["B1"; "B2"]%string). split; [apply ex_orders_ok; [repeat constructor; cbn; intuition discriminate|reflexivity|]|exact G2]. intros i [<-|[<-|[]]]; reflexivity.
    - repeat constructor; cbn; tauto.
    - repeat constructor; cbn; intuition discriminate.
    - intros (i & [<-|[]] & U); exact U.
    - intros (i & [<-|[<-|[]]] & U); exact U.
    - left; reflexivity.
    - left; reflexivity.
    - exact E1.
    - exact E2. }
  apply andb_prop in T1. destruct T1 as [_ T1]. unfold theta_under in T1, T2. rewrite A in T1. destruct (ca_theta c2) as [v|]; [|discriminate T2]. rewrite T2 in T1. discriminate T1.
Qed.
(** the two bonds in one group or in two *)
Definition ex_cat (c : option (list string)) : category := Category c None None.
Definition ex_irs_gen : instrument := Inst "irs" "S1" Ccy_KRW (gof_Z 1) (ex_day 19900) (KSwap IRS Ccy_KRW None None).
Definition ex_ok (is : list instrument) (keys : list string) (k : string) : bool := is_report k (fun _ => true) (group_run ex_formulas ex_setup (ex_orders keys) is).
Example c199_hypotheses_met : (exists r c, may ex_formulas ex_setup [ex_b1] (ROk r) /\ r "B1"%string = Some c) /\ (exists r c, may ex_formulas ex_setup [ex_bond "B1" 7 19900] (ROk r) /\ r "B1"%string = Some c) /\ may ex_formulas ex_setup [ex_irs_gen] RErr /\ (forall r, ~ may ex_formulas ex_setup [ex_irs_gen] (ROk r)) /\ exists h g', gen_distribute (gen_categories [Category (Some ["Bond"]%string) None None] (gen_instruments [ex_b1; ex_b2] gen_new)) = (ROk tt, h) /\ calculates (may ex_formulas ex_setup) h (ROk tt) g' /\ NoDup (map code [ex_b1; ex_b2]).
Proof.
  assert (B1 : forall n day, ex_ok [ex_bond "B1" n day] ["B1"%string] "B1" = true -> exists r c, may ex_formulas ex_setup [ex_bond "B1" n day] (ROk r) /\ r "B1"%string = Some c).
  { intros n day H. destruct (is_report_ok _ _ _ H) as (r & c & G & E & _). exists r, c. split; [|exact E]. exists (ex_orders ["B1"%string]). split; [apply ex_orders_ok; [repeat constructor; cbn; tauto|reflexivity|]|exact G]. intros i [<-|[]]; reflexivity. }
  split; [apply B1; vm_compute; reflexivity|]. split; [apply B1; vm_compute; reflexivity|].
  assert (K : forall o : outcome (rresult (string -> option calc)), match o with Ret RErr => true | _ => false end = true -> o = Ret RErr) by (intros [[x|]| |] Q; try discriminate Q; reflexivity). split; [|split].
  - exists (ex_orders ["S1"%string]). split; [apply ex_orders_ok; [repeat constructor; cbn; tauto|reflexivity|]|apply K; vm_compute; reflexivity]. intros i [<-|[]]; reflexivity.
  - intros r (o & OK & G). destruct (group_steps _ _ _ _ _ G) as (s & l & ws & s' & _ & L & P & _). destruct (c198_each _ _ _ _ _ P) as [_ E]. destruct (E 0%nat ex_irs_gen eq_refl) as (w & C & _).
    rewrite (c198_irs_refuted _ _ _ _ _ _ _ _ _ _ _ L ex_irs_gen Ccy_KRW None None) in C; [discriminate C| |reflexivity]. intros (i & [<-|[]] & U); exact U.
  - eexists. destruct (is_report_ok "B1" (fun _ => true) (group_run ex_formulas ex_setup (ex_orders ["B1"; "B2"]%string) [ex_b1; ex_b2])) as (r & c & G & E & _); [vm_compute; reflexivity|]. eexists. split; [reflexivity|]. split; [|repeat constructor; cbn; intuition discriminate].
    eexists. exists false. split; [|split; reflexivity]. econstructor; [apply (finish_ok _ _ [] [ex_b1; ex_b2] [] false r)|constructor]. exists (ex_orders ["B1"; "B2"]%string). split; [apply ex_orders_ok; [repeat constructor; cbn; intuition discriminate|reflexivity|]|exact G]. intros i [<-|[<-|[]]]; reflexivity.
Qed.
Example c200_hypotheses_met : exists r1 r2, may ex_formulas ex_setup [ex_b1] (ROk r1) /\ may ex_formulas ex_setup [ex_b1; ex_b2] (ROk r2) /\ ~ asked [ex_b1; ex_b2] dummy /\ cf_npv (se_config ex_setup) = true /\ cf_delta (se_config ex_setup) = true.
Proof.
  destruct (is_report_ok "B1" (fun _ => true) (group_run ex_formulas ex_setup (ex_orders ["B1"%string]) [ex_b1])) as (r1 & c1 & G1 & _); [vm_compute; reflexivity|].
  destruct (is_report_ok "B1" (fun _ => true) (group_run ex_formulas ex_setup (ex_orders ["B1"; "B2"]%string) [ex_b1; ex_b2])) as (r2 & c2 & G2 & _); [vm_compute; reflexivity|]. exists r1, r2. split; [|split; [|split; [|split; reflexivity]]].
  - exists (ex_orders ["B1"%string]). split; [apply ex_orders_ok; [repeat constructor; cbn; tauto|reflexivity|]|exact G1]. intros i [<-|[]]; reflexivity.
  - exists (ex_orders ["B1"; "B2"]%string). split; [apply ex_orders_ok; [repeat constructor; cbn; intuition discriminate|reflexivity|]|exact G2]. intros i [<-|[<-|[]]]; reflexivity.
  - intros (i & [<-|[<-|[]]] & U); exact U.
Qed.

Print Assumptions c200_value.
Print Assumptions c200_delta.
Print Assumptions c200_categories.
Print Assumptions c200_theta_refuted.
