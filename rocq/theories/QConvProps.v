(** QConvProps.v -- C194 and C195: the configuration, and reports in another currency. *)
From Coq Require Import ZArith Ascii String.
From Coq Require Import List Bool Lia Reals Lra.
From Flocq Require Import Core IEEE754.BinarySingleNaN.
From Verif Require Import Base FloatModel FloatFacts KrxModel QDateModel QBondModel QMoneyModel QFloatErr QEngModel QSwapProps QMatchProps QEngSpec QEngProps QConvModel QCurveSpec.
Import ListNotations.
Open Scope Z_scope.

(** more than zero *)
Definition positive (x : f32) : Prop := x = B754_infinity false \/ is_finite x = true /\ (0 < value x)%R.
Definition not_a_number (x : f32) : Prop := x = B754_nan.
Definition bumps (c : config) : list f32 := [cf_delta_ratio c; cf_gamma_ratio c; cf_vega_bump c; cf_vega_structure_bump c; cf_vega_matrix_bump c; cf_rho_bump c; cf_div_bump c].

Lemma gle_zero : forall x : f32, gle x (gof_Z 0) = false <-> positive x \/ not_a_number x.
Proof.
  change (gof_Z 0 : f32) with (B754_zero false : f32). intro x. unfold positive, not_a_number, gle, Bleb, SpecFloat.SFleb. destruct x as [b|b| |b m e Hb]; cbn [B2SF].
  - split; [intro Q; destruct b; discriminate Q|]. intros [[Q|[_ Q]]|Q]; try discriminate Q. cbn in Q. lra.
  - destruct b; split; auto; [intro Q; discriminate Q|]. intros [[Q|[Q _]]|Q]; discriminate Q.
  - split; auto.
  - destruct b; cbn.
    + split; [intro Q; discriminate Q|]. intros [[Q|[_ Q]]|Q]; try discriminate Q. exfalso. assert (N : (F2R (Float radix2 (Z.neg m) e) <= 0)%R) by (apply F2R_le_0; cbn; lia). exact (Rlt_not_le _ _ Q N).
    + split; [|reflexivity]. intros _. left. right. split; [reflexivity|]. apply F2R_gt_0. cbn. lia.
Qed.

(** C194: a configuration of numbers is taken, as it is, exactly if delta and gamma are
    both asked for or neither, every bump is above zero, and so are the days of theta *)
Theorem c194_taken : forall c, (forall b, In b (bumps c) -> ~ not_a_number b) -> forall c',
  config_new c = ROk c' <-> c' = c /\ cf_delta c = cf_gamma c /\ (forall b, In b (bumps c) -> positive b) /\ 0 < cf_theta_day c.
Proof.
  intros c N c'. assert (P : forall b, In b (bumps c) -> gle b (gof_Z 0) = false <-> positive b) by (intros b B; rewrite gle_zero; specialize (N b B); tauto). clear N.
  unfold config_new. assert (T := fun b B => proj1 (P b B)). assert (F : forall b, In b (bumps c) -> gle b (gof_Z 0) = true -> ~ positive b) by (intros b B G Q; apply (P b B) in Q; congruence). clear P.
  unfold bumps in *. destruct (Bool.eqb (cf_delta c) (cf_gamma c)) eqn:D; cbn [negb]; [apply Bool.eqb_prop in D|].
  - repeat match goal with
    | |- context [if gle ?b (gof_Z 0) then _ else _] => let G := fresh "G" in destruct (gle b (gof_Z 0)) eqn:G; [split; [intro Q; discriminate Q|]; intros (_ & _ & Q & _); exfalso; apply (F b); [cbn [In]; auto 9|exact G|apply Q; cbn [In]; auto 9]|]
    | |- context [if ?t <=? 0 then _ else _] => destruct (Z.leb_spec t 0) as [L|L]; [split; [intro Q; discriminate Q|]; intros (_ & _ & _ & Q); lia|]
    end.
    split.
    + intro Q. injection Q as Q. split; [symmetry; exact Q|]. split; [exact D|]. split; [|exact L]. intros b B. cbn [In] in B. repeat destruct B as [B|B]; try (subst b; apply T; [cbn [In]; auto 9|assumption]). destruct B.
    + intros (-> & _). reflexivity.
  - split; [intro Q; discriminate Q|]. intros (_ & Q & _). rewrite Q, Bool.eqb_reflx in D. discriminate D.
Qed.
Definition taken (r : rresult config) : bool := match r with ROk _ => true | RErr => false end.
Lemma config_new_same : forall c, taken (config_new c) = true -> config_new c = ROk c.
Proof. intros c H. unfold config_new in *. repeat match goal with |- context [if ?x then _ else _] => destruct x; [discriminate H|] end. reflexivity. Qed.
Lemma config_new_err : forall c, taken (config_new c) = false -> config_new c = RErr.
Proof. intros c H. destruct (config_new c); [discriminate H|reflexivity]. Qed.
Example c194_hypotheses_met : config_new (ex_config true) = ROk (ex_config true) /\ (forall b, In b (bumps (ex_config true)) -> ~ not_a_number b) /\ config_new (with_rho_bump_value (gof_Z 0) (ex_config true)) = RErr /\ config_new (with_gamma false (ex_config true)) = RErr.
Proof.
  split; [apply config_new_same; vm_compute; reflexivity|]. split; [|split; apply config_new_err; vm_compute; reflexivity]. intros b B Q. unfold bumps, ex_config in B. cbn [In cf_delta_ratio cf_gamma_ratio cf_vega_bump cf_vega_structure_bump cf_vega_matrix_bump cf_rho_bump cf_div_bump] in B.
  assert (K : match b with B754_nan => true | _ => false end = false) by (repeat destruct B as [B|B]; try (subst b; vm_compute; reflexivity); destruct B). rewrite Q in K. discriminate K.
Qed.
(** a bump that is not a number is taken too *)
Theorem c194_numbers_refuted : exists c, config_new c = ROk c /\ ~ forall b, In b (bumps c) -> positive b.
Proof.
  exists (with_rho_bump_value B754_nan (ex_config true)). split; [apply config_new_same; vm_compute; reflexivity|]. intro H. specialize (H B754_nan). cbn [bumps with_rho_bump_value cf_rho_bump In] in H. destruct H as [H|[H _]]; [auto 9|discriminate H|discriminate H].
Qed.
(** each of the setters sets one thing and leaves the rest as it is *)
Definition flags (c : config) : list bool := [cf_npv c; cf_fx c; cf_delta c; cf_gamma c; cf_vega c; cf_rho c; cf_div c; cf_theta c; cf_vega_structure c; cf_rho_structure c; cf_div_structure c; cf_vega_matrix c].
Definition grids (c : config) := (cf_rho_tenors c, cf_vega_tenors c, cf_div_tenors c, cf_moneyness c).
Definition changed_at {A} (n : nat) (x : A) (l l' : list A) : Prop := length l' = length l /\ nth_error l' n = Some x /\ forall j, j <> n -> nth_error l' j = nth_error l j.
Lemma changed_app : forall A (a b : list A) x y, changed_at (length a) x (a ++ y :: b) (a ++ x :: b).
Proof.
  intros A a b x y. split; [rewrite !app_length; reflexivity|]. split; [rewrite nth_error_app2 by lia; rewrite Nat.sub_diag; reflexivity|]. intros j N. destruct (Nat.lt_ge_cases j (length a)) as [L|L]; [rewrite !nth_error_app1 by lia; reflexivity|]. rewrite !nth_error_app2 by lia. destruct (j - length a)%nat eqn:E; [lia|]. reflexivity.
Qed.
Theorem c194_setters : forall c,
  (forall n f, In (n, f) [(0%nat, with_delta_bump_ratio); (1%nat, with_gamma_bump_ratio); (2%nat, with_vega_bump_value); (5%nat, with_rho_bump_value)] -> forall x,
     changed_at n x (bumps c) (bumps (f x c)) /\ flags (f x c) = flags c /\ cf_theta_day (f x c) = cf_theta_day c /\ grids (f x c) = grids c) /\
  (forall n f, In (n, f) [(2%nat, with_delta); (3%nat, with_gamma)] -> forall x,
     changed_at n x (flags c) (flags (f x c)) /\ bumps (f x c) = bumps c /\ cf_theta_day (f x c) = cf_theta_day c /\ grids (f x c) = grids c) /\
  (forall x, cf_theta_day (with_theta_day x c) = x /\ flags (with_theta_day x c) = flags c /\ bumps (with_theta_day x c) = bumps c /\ grids (with_theta_day x c) = grids c).
Proof.
  intro c. destruct c as [b1 b2 b3 b4 b5 b6 b7 b8 b9 b10 b11 b12 f1 f2 f3 f4 f5 f6 f7 td g1 g2 g3 g4]. split; [|split]; [| |intro x; do 3 (split; [reflexivity|]); reflexivity];
    intros n f H x; cbn [In] in H; repeat destruct H as [H|H]; try contradiction H; injection H as <- <-; (split; [|do 2 (split; [reflexivity|]); reflexivity]).
  - exact (changed_app _ [] [f2; f3; f4; f5; f6; f7] x f1).
  - exact (changed_app _ [f1] [f3; f4; f5; f6; f7] x f2).
  - exact (changed_app _ [f1; f2] [f4; f5; f6; f7] x f3).
  - exact (changed_app _ [f1; f2; f3; f4; f5] [f7] x f6).
  - exact (changed_app _ [b1; b2] [b4; b5; b6; b7; b8; b9; b10; b11; b12] x b3).
  - exact (changed_app _ [b1; b2; b3] [b5; b6; b7; b8; b9; b10; b11; b12] x b4).
Qed.
(** nothing that is set later is checked: from a configuration that was taken, one call
    leads to one that new refuses, whatever it sets *)
Theorem c194_later_refuted : forall c b, config_new c = ROk c -> gle b (gof_Z 0) = true ->
  Forall (fun f => config_new (f b c) = RErr) [with_delta_bump_ratio; with_gamma_bump_ratio; with_vega_bump_value; with_rho_bump_value] /\
  (forall d, d <= 0 -> config_new (with_theta_day d c) = RErr) /\ config_new (with_delta (negb (cf_gamma c)) c) = RErr.
Proof.
  intros c b H B. unfold config_new in H. destruct (Bool.eqb (cf_delta c) (cf_gamma c)) eqn:D; [|discriminate H]. cbn [negb] in H.
  repeat match type of H with (if ?x then _ else _) = _ => let Q := fresh "Q" in destruct x eqn:Q; [discriminate H|] end.
  split; [|split].
  - repeat apply Forall_cons; try apply Forall_nil; unfold config_new; cbn [with_delta_bump_ratio with_gamma_bump_ratio with_vega_bump_value with_rho_bump_value cf_delta cf_gamma cf_delta_ratio cf_gamma_ratio cf_rho_bump cf_vega_bump]; rewrite D; cbn [negb];
      repeat match goal with Q : ?x = false |- context [if ?x then _ else _] => rewrite Q end; rewrite ?B; reflexivity.
  - intros d L. unfold config_new. cbn [with_theta_day cf_delta cf_gamma cf_delta_ratio cf_gamma_ratio cf_rho_bump cf_vega_bump cf_vega_structure_bump cf_vega_matrix_bump cf_theta_day]. rewrite D. cbn [negb]. repeat match goal with Q : ?x = false |- context [if ?x then _ else _] => rewrite Q end.
    apply Z.leb_le in L. rewrite L. reflexivity.
  - unfold config_new. cbn [with_delta cf_delta cf_gamma]. destruct (cf_gamma c); reflexivity.
Qed.
(** and a sensitivity by a bump of zero is never a number *)
Theorem c194_zero_bump : forall up npv unit n, is_finite (slope up npv (gof_Z 0) unit n) = false.
Proof.
  intros up npv unit n. unfold slope. change (gof_Z 0 : f32) with (B754_zero false : f32).
  assert (M : forall x y : f32, is_finite x = false -> is_finite (gmul x y) = false) by (intros [ | | | ] [ | | | ] Q; try discriminate Q; reflexivity).
  apply M, M. destruct (gsub up npv); reflexivity.
Qed.

(** ** C195: reports in another currency *)
(** the figures of a report that are amounts of money *)
Inductive figure : Type := FValue | FExposure (d : currency) | FGreek (g : greek) (u : string) | FRung (g : ladder) (u : string) (j : nat) | FCell (u : string) (a b : nat) | FTheta.
Definition figure_of (c : calc) (x : figure) (v : f32) : Prop :=
  match x with
  | FValue => ca_value c = Some v
  | FExposure d => exists l, ca_fx c = Some l /\ In (d, v) l
  | FGreek g u => ca_greek c g u = Some v
  | FRung g u j => exists l, ca_ladder c g u = Some l /\ nth_error l j = Some v
  | FCell u a b => exists m l, ca_matrix c u = Some m /\ nth_error m a = Some l /\ nth_error l b = Some v
  | FTheta => ca_theta c = Some v
  end.
(** C195: in its own currency a report stays as it is; in another every amount but those
    below is the product with the rate, no amount comes or goes, and the report is in
    the currency that was asked for *)
Theorem c195_converted : forall r own c fx, rp_ccy r = Some own -> exists r', convert r c fx = Ret (ROk r') /\ rp_ccy r' = Some c /\ (c = own -> r' = r) /\
  (c <> own -> forall x w, figure_of (rp_calc r') x w <-> exists v, figure_of (rp_calc r) x v /\ w = gmul v fx).
Proof.
  intros r own c fx R. unfold convert. rewrite R. destruct (ccy_eqb c own) eqn:E.
  - destruct (ccy_cases c own) as [[_ Q]|[Q _]]; [|congruence]. exists r. repeat split; try congruence; intro Q; congruence.
  - eexists. split; [reflexivity|]. split; [reflexivity|]. assert (N : c <> own) by (intros ->; unfold ccy_eqb in E; rewrite Z.eqb_refl in E; discriminate E). split; [congruence|]. intros _ x w.
    assert (O : forall o : option f32, option_map (fun y => gmul y fx) o = Some w <-> exists v, o = Some v /\ w = gmul v fx).
    { intros [v|]; cbn [option_map]; (split; [intro Q|intros (v' & Q & W)]); try discriminate Q; [exists v; split; congruence|]. apply some_inj in Q. congruence. }
    assert (L : forall (l : list f32) j, nth_error (map (fun y => gmul y fx) l) j = Some w <-> exists v, nth_error l j = Some v /\ w = gmul v fx) by (intros l j; rewrite nth_error_map; apply O).
    destruct x as [|d|g u|g u j|u a b|]; cbn [figure_of rp_calc ca_value ca_fx ca_greek ca_ladder ca_matrix ca_theta]; try apply O.
    + destruct (ca_fx (rp_calc r)) as [l|]; cbn [option_map]; split.
      * intros (l' & Q & I). apply some_inj in Q. subst l'. apply in_map_iff in I. destruct I as ((d' & v) & Q & I). injection Q as -> Q. exists v. split; [exists l; auto|congruence].
      * intros (v & (l' & Q & I) & W). apply some_inj in Q. subst l'. eexists. split; [reflexivity|]. apply in_map_iff. exists (d, v). split; [congruence|exact I].
      * intros (l' & Q & _). discriminate Q.
      * intros (v & (l' & Q & _) & _). discriminate Q.
    + destruct (ca_ladder (rp_calc r) g u) as [l|]; cbn [option_map]; split.
      * intros (l' & Q & I). apply some_inj in Q. subst l'. apply L in I. destruct I as (v & I & W). exists v. split; [exists l; auto|exact W].
      * intros (v & (l' & Q & I) & W). apply some_inj in Q. subst l'. eexists. split; [reflexivity|]. apply L. exists v. auto.
      * intros (l' & Q & _). discriminate Q.
      * intros (v & (l' & Q & _) & _). discriminate Q.
    + destruct (ca_matrix (rp_calc r) u) as [m|]; cbn [option_map]; split.
      * intros (m' & l' & Q & A & I). apply some_inj in Q. subst m'. rewrite nth_error_map in A. destruct (nth_error m a) as [l|] eqn:NA; [|discriminate A]. cbn [option_map] in A. apply some_inj in A. subst l'. apply L in I. destruct I as (v & I & W). exists v. split; [exists m, l; auto|exact W].
      * intros (v & (m' & l' & Q & A & I) & W). apply some_inj in Q. subst m'. exists (map (map (fun y => gmul y fx)) m), (map (fun y => gmul y fx) l'). split; [reflexivity|]. split; [rewrite nth_error_map, A; reflexivity|]. apply L. exists v. auto.
      * intros (l' & l & Q & _). discriminate Q.
      * intros (v & (l' & l & Q & _) & _). discriminate Q.
Qed.
(** the rounding of one conversion *)
Theorem c195_rounding : forall (v fx : f32), is_finite v = true -> is_finite fx = true -> (Rabs (value v * value fx) <= bpow radix2 127)%R ->
  is_finite (gmul v fx) = true /\ (Rabs (value (gmul v fx) - value v * value fx) <= / IZR (2 ^ 24) * Rabs (value v * value fx) + bpow radix2 (-150))%R.
Proof.
  intros v fx F G B. destruct (mul_err v fx (B2R v) (B2R fx) (conj F eq_refl) (conj G eq_refl) B) as (w & d & t & [FW VW] & D & T & W). split; [exact FW|]. change (value (gmul v fx)) with (B2R (gmul v fx)). rewrite VW, W.
  change (value v) with (B2R v). change (value fx) with (B2R fx). set (p := (B2R v * B2R fx)%R) in *. replace (p * (1 + d) + t - p)%R with (d * p + t)%R by ring.
  eapply Rle_trans; [apply Rabs_triang|]. rewrite Rabs_mult. apply Rplus_le_compat; [|exact T]. apply Rmult_le_compat_r; [apply Rabs_pos|exact D].
Qed.
(** the net present value and the cashflows stay in the old currency *)
Theorem c195_npv_refuted : forall r c fx r', convert r c fx = Ret (ROk r') -> ca_npv (rp_calc r') = ca_npv (rp_calc r) /\ ca_cash (rp_calc r') = ca_cash (rp_calc r) /\ ca_unit (rp_calc r') = ca_unit (rp_calc r).
Proof. intros r c fx r' H. unfold convert in H. destruct (rp_ccy r) as [own|]; [|discriminate H]. destruct (ccy_eqb c own); injection H as H; subst r'; cbn [rp_calc ca_npv ca_cash ca_unit]; auto. Qed.
(** so the value is no longer that of the units *)
Definition in_units (c : calc) : Prop := forall r v, ca_npv c = Some r -> ca_value c = Some v -> geq v (gmul (nr_npv r) (ca_unit c)) = true.
Definition ex_report : report := Report (Some Ccy_USD) (set_greek Delta "a" (gof_Z 5) (Calc (gof_Z 10) (Some (NpvResult (gof_Z 3) [] [])) (Some (gof_Z 30)) (Some [(Ccy_USD, gof_Z 30)]) (fun _ _ => None) (fun _ _ => None) (fun _ => None) None None)).
Theorem c195_units_refuted : exists r r', in_units (rp_calc r) /\ convert r Ccy_KRW (gof_Z 1300) = Ret (ROk r') /\ ~ in_units (rp_calc r').
Proof.
  exists ex_report. eexists. split; [|split; [reflexivity|]].
  - intros r v Q W. cbn [ex_report rp_calc set_greek ca_npv ca_value] in Q, W. apply some_inj in Q, W. subst r v. vm_compute. reflexivity.
  - intro H. specialize (H (NpvResult (gof_Z 3) [] []) (gmul (gof_Z 30) (gof_Z 1300)) eq_refl eq_refl). vm_compute in H. discriminate H.
Qed.
Example c195_hypotheses_met : rp_ccy ex_report = Some Ccy_USD /\ Ccy_KRW <> Ccy_USD /\ figure_of (rp_calc ex_report) (FGreek Delta "a") (gof_Z 5) /\ figure_of (rp_calc ex_report) (FExposure Ccy_USD) (gof_Z 30).
Proof. repeat split; try discriminate. cbn [figure_of ex_report rp_calc set_greek ca_fx]. eexists. split; [reflexivity|]. cbn [In]. auto. Qed.
(** a report that has no currency panics, and one that is not set from an instrument has
    none *)
Theorem c195_unset_refuted : forall k c fx, convert (Report None k) c fx = Panic.
Proof. reflexivity. Qed.
(** there and back again is not the report of before *)
Definition round_trip (v fx : f32) : f32 := gmul (gmul v fx) (gdiv (gof_Z 1) fx).
Theorem c195_back_refuted : exists r r1 r2 fx, convert r Ccy_KRW fx = Ret (ROk r1) /\ convert r1 Ccy_USD (gdiv (gof_Z 1) fx) = Ret (ROk r2) /\ ca_value (rp_calc r2) <> ca_value (rp_calc r).
Proof.
  exists (Report (Some Ccy_USD) (Calc (gof_Z 1) None (Some (gof_Z 3)) None (fun _ _ => None) (fun _ _ => None) (fun _ => None) None None)). eexists. eexists. exists (gof_Z 7). split; [reflexivity|]. split; [reflexivity|]. cbn [rp_calc ca_value option_map]. intro Q. apply some_inj in Q.
  assert (K : geq (round_trip (gof_Z 3) (gof_Z 7)) (gof_Z 3) = true) by (unfold round_trip; rewrite Q; vm_compute; reflexivity). vm_compute in K. discriminate K.
Qed.

Print Assumptions c194_taken.
Print Assumptions c194_numbers_refuted.
Print Assumptions c194_setters.
Print Assumptions c194_later_refuted.
Print Assumptions c194_zero_bump.
Print Assumptions c195_converted.
Print Assumptions c195_rounding.
Print Assumptions c195_npv_refuted.
Print Assumptions c195_units_refuted.
Print Assumptions c195_unset_refuted.
Print Assumptions c195_back_refuted.
