(** QBondProps.v -- C142 to C144, C149: past prices, bonds and their cash flows. *)
From Coq Require Import ZArith List Permutation Sorting.Sorted Reals Lra Lia Bool Ascii.
From Flocq Require Import Core IEEE754.BinarySingleNaN Mult_error.
From Verif Require Import Base CivilSpec FloatModel FloatFacts KrxModel QDateModel QDateProofs QCalModel QCalSpec QCalProps QPeriodModel QPeriodSpec QPeriodProps QYearModel QYearSpec QYearProps QSchedModel QInterpModel QInterpSpec QDivModel
  QCurveModel QCurveSpec QCurveFacts QFloatErr QLinProps QCurveProps QBondModel QBondSpec QBondProofs QBondPriceProps.
Import ListNotations.
Open Scope Z_scope.

(** ** C142: closing prices *)
Theorem c142_record : forall p day v, close_on (record_close p day v) day = Some v /\ (forall other, other <> day -> close_on (record_close p day v) other = close_on p other) /\ forall other, close_on no_closes other = None.
Proof.
  intros [l t o c] day v. unfold close_on, record_close. cbn [cp_value]. split; [|split; [|reflexivity]].
  - induction l as [|[a w] l IH]; cbn; [rewrite Z.eqb_refl; reflexivity|]. destruct (a =? day) eqn:E; cbn; rewrite E; [reflexivity|exact IH].
  - intros other N. induction l as [|[a w] l IH]; cbn; [destruct (Z.eqb_spec day other); [congruence|reflexivity]|].
    destruct (Z.eqb_spec a day) as [E|E]; cbn; destruct (Z.eqb_spec a other) as [E'|E']; try congruence; reflexivity.
Qed.
(** up to the close it is the price of the local day *)
Theorem c142_before : forall p d, in_range (local_day (cp_off p) d) = true -> (instant d + cp_off p * 1000000000) mod day_ns <= cp_close p -> close_at p d = Ret (close_on p (local_day (cp_off p) d)).
Proof.
  intros p d R L. unfold close_at, to_offset. fold (local_day (cp_off p) d). rewrite R. cbn [obind od_ns od_day]. rewrite (proj2 (Z.ltb_ge _ _) L). reflexivity.
Qed.
(** after the close it is the price of the next business day *)
Theorem c142_after : forall p d, in_range (local_day (cp_off p) d) = true -> cp_close p < (instant d + cp_off p * 1000000000) mod day_ns -> -93599 <= cp_off p <= 93599 ->
  let e := Odt (local_day (cp_off p) d + 1) ((instant d + cp_off p * 1000000000) mod day_ns) (cp_off p) in
  away_from_ends 0 e -> od_day e + span (One (cp_cal p)) <= date_max - 2 ->
  exists k, 0 <= k < span (One (cp_cal p)) /\ is_open (One (cp_cal p)) (later e k) /\ (forall j, 0 <= j < k -> is_closed (One (cp_cal p)) (later e j)) /\
    close_at p d = Ret (close_on p (local_day (cp_off p) d + 1 + k)).
Proof.
  intros p d R L O e A S. assert (Ok : odt_ok e) by exact (proj1 (away_inner 0 e ltac:(lia) A)).
  destruct (proj1 (c79_following (One (cp_cal p)) e Ok) (conj A S)) as (k & K & E & OP & CL). exists k. split; [exact K|]. split; [exact OP|]. split; [exact CL|].
  unfold close_at, to_offset. fold (local_day (cp_off p) d). rewrite R. cbn [obind od_ns]. rewrite (proj2 (Z.ltb_lt _ _) L). unfold add_days, date_add. cbn [od_day od_ns od_off].
  assert (R1 : in_range (local_day (cp_off p) d + 1) = true) by exact (proj1 Ok). rewrite R1. cbn [obind]. fold e. rewrite E. cbn [obind]. reflexivity.
Qed.
(** the ordered data: the entries by rising date, whatever the iteration *)
Lemma sort_in_perm : forall x l, Permutation (sort_in x l) (x :: l).
Proof.
  intros x l. induction l as [|y l IH]; [apply Permutation_refl|]. cbn [sort_in]. destruct (fst x <=? fst y); [apply Permutation_refl|].
  apply Permutation_trans with (y :: x :: l); [constructor; exact IH|constructor].
Qed.
Lemma sort_perm : forall l, Permutation (sort_by_date l) l.
Proof. induction l as [|x l IH]; [constructor|]. cbn [sort_by_date fold_right]. apply Permutation_trans with (1 := sort_in_perm _ _). constructor. exact IH. Qed.
Definition before (x y : Z * f32) : Prop := fst x < fst y.
Lemma sort_in_sorted : forall x l, ~ In (fst x) (map fst l) -> StronglySorted before l -> StronglySorted before (sort_in x l).
Proof.
  intros x l. induction l as [|y l IH]; intros N H; cbn [sort_in]; [constructor; constructor|]. inversion H as [|? ? H1 H2]; subst. cbn [map In] in N.
  destruct (Z.leb_spec (fst x) (fst y)) as [L|L].
  - assert (LT : fst x < fst y) by (assert (fst y <> fst x) by tauto; lia). constructor; [exact H|]. constructor; [exact LT|].
    rewrite List.Forall_forall in *. intros z I. specialize (H2 z I). unfold before in *. lia.
  - constructor; [apply IH; [tauto|exact H1]|]. rewrite List.Forall_forall in *. intros z I. apply (Permutation_in z (sort_in_perm x l)) in I. destruct I as [<-|I]; [exact L|apply H2; exact I].
Qed.
Lemma sort_sorted : forall l, NoDup (map fst l) -> StronglySorted before (sort_by_date l).
Proof.
  induction l as [|x l IH]; intro N; [constructor|]. cbn [map] in N. inversion N as [|? ? N1 N2]; subst. cbn [sort_by_date fold_right]. apply sort_in_sorted; [|apply IH; exact N2].
  intro I. apply N1. apply (Permutation_in _ (Permutation_map fst (sort_perm l))). exact I.
Qed.
Lemma sorted_unique : forall l l', StronglySorted before l -> StronglySorted before l' -> Permutation l l' -> l = l'.
Proof.
  induction l as [|x l IH]; intros l' H H' P.
  - apply Permutation_nil in P. congruence.
  - destruct l' as [|y l']; [apply Permutation_sym, Permutation_nil in P; discriminate P|]. inversion H as [|? ? H1 H2]; subst. inversion H' as [|? ? H1' H2']; subst.
    assert (E : x = y).
    { assert (Ix : In x (y :: l')) by (apply (Permutation_in x P); left; reflexivity). assert (Iy : In y (x :: l)) by (apply (Permutation_in y (Permutation_sym P)); left; reflexivity).
      rewrite List.Forall_forall in H2, H2'. destruct Ix as [Ix|Ix]; [congruence|]. destruct Iy as [Iy|Iy]; [congruence|]. specialize (H2 y Iy). specialize (H2' x Ix). unfold before in *. lia. }
    subst y. f_equal. apply IH; [exact H1|exact H1'|]. apply Permutation_cons_inv in P. exact P.
Qed.
Theorem c142_ordered : forall o1 p, iterates o1 -> NoDup (map fst (cp_value p)) -> exists l, Permutation l (cp_value p) /\ StronglySorted before l /\
  ordered_closes o1 p = (map fst l, map snd l) /\ forall o2, iterates o2 -> ordered_closes o2 p = ordered_closes o1 p.
Proof.
  intros o1 p I1 N. assert (S : forall o, iterates o -> Permutation (sort_by_date (o (cp_value p))) (cp_value p) /\ StronglySorted before (sort_by_date (o (cp_value p)))).
  { intros o I. split; [apply Permutation_trans with (1 := sort_perm _); apply I|]. apply sort_sorted. apply (Permutation_NoDup (Permutation_sym (Permutation_map fst (I _)))). exact N. }
  exists (sort_by_date (o1 (cp_value p))). destruct (S o1 I1) as [A B]. split; [exact A|]. split; [exact B|]. split; [reflexivity|].
  intros o2 I2. destruct (S o2 I2) as [C D]. unfold ordered_closes. rewrite (sorted_unique _ _ D B); [reflexivity|]. apply Permutation_trans with (1 := C). apply Permutation_sym. exact A.
Qed.
Theorem c142_distinct : forall p day v, NoDup (map fst (cp_value p)) -> NoDup (map fst (cp_value (record_close p day v))).
Proof.
  intros [l t o c] day v. cbn [record_close cp_value]. induction l as [|[a w] l IH]; intro N; [constructor; [intros []|constructor]|]. cbn [map fst] in N. inversion N as [|? ? N1 N2]; subst. cbn [hm_insert].
  destruct (Z.eqb_spec a day) as [E|E]; [exact N|]. cbn [map fst]. constructor; [|apply IH; exact N2]. intro I. apply N1.
  assert (Q : forall m, In a (map fst (hm_insert day v m)) -> In a (map fst m) \/ a = day).
  { induction m as [|[b u] m IHm]; cbn; [intros [X|[]]; right; congruence|]. destruct (b =? day); cbn; [tauto|]. intros [X|X]; [tauto|]. destruct (IHm X); tauto. }
  destruct (Q l I); [assumption|contradiction].
Qed.

(** ** C143: making a bond *)
Theorem c143_new : forall notional strip rows fixed spread index comp issue effective pricing maturity a dc cv f pg fg,
  let r := bond_new notional strip rows fixed spread index comp issue effective pricing maturity a dc cv f pg fg in
  (r = RErr <-> (fixed = None <-> index = None)) /\
  (forall b, r = ROk b -> bd_rows b = rows /\ bd_fixed b = fixed /\ bd_index b = index /\ bd_spread b = spread /\ bd_comp b = comp /\ bd_strip b = strip /\ bd_notional b = notional /\ bd_issue b = issue /\
     bd_effective b = effective /\ bd_pricing b = pricing /\ bd_maturity b = maturity /\ bd_cal b = a /\ bd_dc b = dc /\ bd_conv b = cv /\ bd_freq b = f /\ bd_pay_gap b = pg /\ bd_fix_gap b = fg).
Proof.
  intros. subst r. destruct fixed as [x|], index as [t|]; cbn [bond_new].
  - split; [split; [intros _; split; intro Q; discriminate Q|reflexivity]|intros b Q; discriminate Q].
  - split; [split; [intro Q; discriminate Q|intros [_ Q]; discriminate (Q eq_refl)]|intros b Q; injection Q as <-; cbn; repeat split].
  - split; [split; [intro Q; discriminate Q|intros [Q _]; discriminate (Q eq_refl)]|intros b Q; injection Q as <-; cbn; repeat split].
  - split; [split; [intros _; split; reflexivity|reflexivity]|intros b Q; discriminate Q].
Qed.
(** from conventions: one row without amount for every coupon of the schedule *)
Theorem c143_conventions : forall m notional strip issue effective pricing maturity fixed spread index comp a forward dc cv f fg pg,
  let r := bond_from_conventions m notional strip issue effective pricing maturity fixed spread index comp a forward dc cv f fg pg in
  (forall cs, build_schedule m forward effective maturity a cv f fg pg = Ret (ROk cs) ->
     exists b, r = Ret (ROk b) /\ map rw_dates (bd_rows b) = cs /\ Forall (fun r => rw_amount r = None) (bd_rows b) /\ bd_fixed b = fixed /\ bd_index b = index /\ bd_spread b = spread /\ bd_comp b = comp /\
       bd_strip b = strip /\ bd_notional b = notional /\ bd_issue b = issue /\ bd_effective b = effective /\ bd_pricing b = pricing /\ bd_maturity b = maturity /\ bd_cal b = a /\ bd_dc b = dc /\ bd_conv b = cv /\
       bd_freq b = f /\ bd_pay_gap b = pg /\ bd_fix_gap b = fg) /\
  (build_schedule m forward effective maturity a cv f fg pg = Ret RErr -> r = Ret RErr).
Proof.
  intros. subst r. unfold bond_from_conventions. split; [|intros ->; reflexivity].
  intros cs ->. cbn [rbind]. eexists. split; [reflexivity|]. cbn. split; [rewrite map_map; cbn; apply map_id|]. split; [|repeat split].
  apply List.Forall_forall. intros r I. apply in_map_iff in I. destruct I as (c & <- & _). reflexivity.
Qed.
(** REFUTED: the conventions do not check that there is a rate: neither, and
    both, are accepted (and the first panics when its cash flows are asked for) *)
Theorem c143_unchecked_refuted : forall m notional strip issue effective pricing maturity fixed spread index comp a forward dc cv f fg pg cs,
  build_schedule m forward effective maturity a cv f fg pg = Ret (ROk cs) -> (fixed = None /\ index = None \/ fixed <> None /\ index <> None) ->
  exists b, bond_from_conventions m notional strip issue effective pricing maturity fixed spread index comp a forward dc cv f fg pg = Ret (ROk b) /\
    bond_new notional strip (bd_rows b) fixed spread index comp issue effective pricing maturity a dc cv f pg fg = RErr.
Proof.
  intros m notional strip issue effective pricing maturity fixed spread index comp a forward dc cv f fg pg cs E H. unfold bond_from_conventions. rewrite E. cbn [rbind]. eexists. split; [reflexivity|].
  destruct H as [[-> ->]|[H1 H2]]; [reflexivity|]. destruct fixed; [|contradiction]. destruct index; [reflexivity|contradiction].
Qed.

(** ** C144: cash flows *)
Lemma pays_row : forall f_ln b eval pricing fwd past r x, pays f_ln b eval pricing fwd past r x -> row_amount f_ln b r eval fwd past pricing = Ret (ROk x).
Proof.
  intros f_ln b eval pricing fwd past r x H. unfold row_amount. destruct H as [H|[(H & I & f & rate & R & Y & ->)|(H & tenor & c & p & I & C & P & Q)]]; rewrite H.
  - reflexivity.
  - rewrite I, Y. cbn [rbind]. rewrite R. reflexivity.
  - rewrite I, C. destruct P as [-> | [-> ->]]; exact Q.
Qed.
Theorem c144_flows : forall f_ln b eval pricing fwd past xs,
  Forall2 (fun r x => od_day (payment_date (rw_dates r)) < od_day pricing \/ pays f_ln b eval pricing fwd past r x) (bd_rows b) xs ->
  exists m, cashflows f_ln b eval pricing fwd past = Ret (ROk m) /\
    collects m (due pricing (combine (map (fun r => payment_date (rw_dates r)) (bd_rows b)) xs ++ (if bd_strip b then [] else [(bd_maturity b, gof_Z 1)]))).
Proof.
  intros f_ln b eval pricing fwd past xs H. unfold cashflows.
  destruct (cash_rows_ok f_ln b eval fwd past pricing (bd_rows b) xs [] [] collects_nil) as (m & E & C).
  { clear - H. induction H as [|r x l l' A H IH]; constructor; [|exact IH]. destruct A as [A|A]; [left; exact A|right; apply pays_row; exact A]. }
  rewrite E. cbn [rbind app] in *. eexists. split; [reflexivity|]. unfold due in *. rewrite filter_app.
  destruct (bd_strip b); cbn [negb andb filter fst]; [rewrite app_nil_r; exact C|]. destruct (od_day pricing <=? od_day (bd_maturity b)); [apply collects_add; exact C|rewrite app_nil_r; exact C].
Qed.
(** a row that is due and fails makes the cash flows fail *)
Theorem c144_error : forall f_ln b eval pricing fwd past, bd_index b = None -> bd_fixed b <> None -> bd_cal b <> Joint [] ->
  (exists r, In r (bd_rows b) /\ od_day pricing <= od_day (payment_date (rw_dates r)) /\ rw_amount r = None /\ instant (calc_end_date (rw_dates r)) < instant (calc_start_date (rw_dates r))) ->
  (forall r, In r (bd_rows b) -> exists x, year_fraction (bd_cal b) (calc_start_date (rw_dates r)) (calc_end_date (rw_dates r)) (bd_dc b) = Ret x) ->
  cashflows f_ln b eval pricing fwd past = Ret RErr.
Proof.
  intros f_ln b eval pricing fwd past I NF NJ (r & Ir & D & A & L) T. unfold cashflows. rewrite cash_rows_err; [reflexivity| |].
  - intros r0 I0 D0. unfold row_amount. rewrite I. destruct (rw_amount r0) as [x|]; [exists (ROk x); reflexivity|]. destruct (T r0 I0) as (y & ->). destruct y as [y|]; cbn [rbind]; [|exists RErr; reflexivity].
    destruct (bd_fixed b); [eexists; reflexivity|contradiction].
  - exists r. split; [exact Ir|]. split; [exact D|]. unfold row_amount. rewrite A, I.
    assert (Y : year_fraction (bd_cal b) (calc_start_date (rw_dates r)) (calc_end_date (rw_dates r)) (bd_dc b) = Ret RErr).
    { rewrite built_year_fraction by exact NJ. unfold cal_year_fraction. rewrite (proj2 (Z.ltb_lt _ _) L). reflexivity. }
    rewrite Y. reflexivity.
Qed.
(** half a year of a fixed coupon (30/360): half the rate *)
Lemma half_exact : rnd 24 128 (180 / 360) = (/ 2)%R.
Proof.
  replace (180 / 360)%R with (bpow radix2 (-1)) by (cbn; lra). unfold rnd. rewrite round_generic; [cbn; lra|apply valid_rnd_N|]. apply generic_format_bpow. cbn. lia.
Qed.
Theorem c144_half_year : forall f_ln b eval pricing fwd past r rate y1 m1 d1 y2 m2 d2, built (bd_cal b) -> bd_dc b = StreetConvention -> bd_index b = None -> bd_fixed b = Some rate -> rw_amount r = None ->
  odt_ok (calc_start_date (rw_dates r)) -> odt_ok (calc_end_date (rw_dates r)) -> ymd (calc_start_date (rw_dates r)) y1 m1 d1 -> ymd (calc_end_date (rw_dates r)) y2 m2 d2 ->
  instant (calc_start_date (rw_dates r)) <= instant (calc_end_date (rw_dates r)) -> ~ (30 <= d1 /\ d2 = 31) -> days_30_360_us y1 m1 d1 y2 m2 d2 = 180 ->
  finite rate -> (/ 2 ^ 100 <= Rabs (value rate))%R -> exists x, pays f_ln b eval pricing fwd past r x /\ finite x /\ (value x = value rate / 2)%R.
Proof.
  intros f_ln b eval pricing fwd past r rate y1 m1 d1 y2 m2 d2 HB DC NI R NA O1 O2 Y1 Y2 L N D FR BR.
  destruct (c93_street_partial (bd_cal b) _ _ y1 m1 d1 y2 m2 d2 HB O1 O2 Y1 Y2 L N) as (f & EF & NF). rewrite D in NF. unfold nearest_f32 in NF. rewrite half_exact in NF.
  exists (gmul f rate). split; [right; left; split; [exact NA|]; split; [exact NI|]; exists f, rate; rewrite DC; auto|].
  assert (RR : rnd 24 128 (/ 2 * value rate) = (value rate / 2)%R).
  { unfold rnd. change (SpecFloat.fexp 24 128) with (FLT_exp (-149) 24).
    replace (/ 2 * value rate)%R with (value rate * bpow radix2 (-1))%R by (cbn; lra). rewrite round_generic; [cbn; lra|apply valid_rnd_N|].
    destruct (Req_dec (value rate) 0) as [Z|NZ]; [rewrite Z, Rmult_0_l; apply generic_format_0|]. apply mult_bpow_exact_FLT; [exact (generic_format_B2R 24 128 rate)|].
    assert (M : (-99 <= mag radix2 (value rate))%Z); [|lia].
    apply mag_ge_bpow. change (-99 - 1)%Z with (Z.opp 100). rewrite bpow_opp. rewrite <- (IZR_Zpower radix2 100) by lia. apply Rle_trans with (2 := BR). right. rewrite pow_IZR. reflexivity. }
  destruct (fin_mul 24 128 f rate (/ 2)%R (value rate) NF (conj FR eq_refl)) as [FX VX].
  - rewrite Rabs_mult. rewrite (Rabs_pos_eq (/ 2)) by lra. pose proof (abs_B2R_lt_emax 24 128 rate) as Q. fold (value rate) in Q. unfold huge.
    change (128 - 1)%Z with 127%Z. replace (bpow radix2 128) with (2 * bpow radix2 127)%R in Q by (change 2%R with (bpow radix2 1); rewrite <- bpow_plus; reflexivity). lra.
  - split; [exact FX|]. unfold value at 1. rewrite VX. exact RR.
Qed.

(** ** C149: panics *)
(** REFUTED: a floating bond without forward curve panics, and so does a bond
    without rate, as soon as a coupon without amount is due *)
Theorem c149_no_curve_refuted : forall f_ln b eval pricing past r rows tenor, bd_rows b = r :: rows -> od_day pricing <= od_day (payment_date (rw_dates r)) -> rw_amount r = None -> bd_index b = Some tenor ->
  cashflows f_ln b eval pricing None past = Panic.
Proof. intros f_ln b eval pricing past r rows tenor E D A I. unfold cashflows. rewrite E. cbn [cash_rows]. rewrite (proj2 (Z.ltb_ge _ _) D). unfold row_amount. rewrite A, I. reflexivity. Qed.
Theorem c149_no_rate_refuted : forall f_ln b eval pricing fwd past r rows f, bd_rows b = r :: rows -> od_day pricing <= od_day (payment_date (rw_dates r)) -> rw_amount r = None -> bd_index b = None -> bd_fixed b = None ->
  year_fraction (bd_cal b) (calc_start_date (rw_dates r)) (calc_end_date (rw_dates r)) (bd_dc b) = Ret (ROk f) -> cashflows f_ln b eval pricing fwd past = Panic.
Proof.
  intros f_ln b eval pricing fwd past r rows f E D A I R Y. unfold cashflows. rewrite E. cbn [cash_rows]. rewrite (proj2 (Z.ltb_ge _ _) D). unfold row_amount. rewrite A, I, Y. cbn [rbind]. rewrite R. reflexivity.
Qed.

(** ** Cases that meet the hypotheses *)
(** a price for Friday 15 and one for Monday 18 March 2024: at 15:40 it is
    Friday's, at 16:00 Monday's *)
Definition ex_closes : closes := record_close (record_close no_closes (od_day (day_of 2024 3 18)) (gof_Z 2)) (od_day (day_of 2024 3 15)) (gof_Z 1).
Definition ex_evening : odt := civil 2024 3 15 (16 * 3600 * 1000000000) (9 * 3600).
Definition ex_noon : odt := civil 2024 3 15 (12 * 3600 * 1000000000) (9 * 3600).
Definition is_close (r : outcome (option f32)) (z : Z) : bool := match r with Ret (Some x) => geq x (gof_Z z) | _ => false end.
Example c142_hypotheses_met : in_range (local_day (cp_off ex_closes) ex_evening) = true /\ cp_close ex_closes < (instant ex_evening + cp_off ex_closes * 1000000000) mod day_ns /\ -93599 <= cp_off ex_closes <= 93599 /\
  (let e := Odt (local_day (cp_off ex_closes) ex_evening + 1) ((instant ex_evening + cp_off ex_closes * 1000000000) mod day_ns) (cp_off ex_closes) in
   away_from_ends 0 e /\ od_day e + span (One (cp_cal ex_closes)) <= date_max - 2) /\
  in_range (local_day (cp_off ex_closes) ex_noon) = true /\ (instant ex_noon + cp_off ex_closes * 1000000000) mod day_ns <= cp_close ex_closes /\
  NoDup (map fst (cp_value ex_closes)) /\ is_close (close_at ex_closes ex_noon) 1 = true /\ is_close (close_at ex_closes ex_evening) 2 = true.
Proof.
  split; [reflexivity|]. split; [reflexivity|]. split; [split; discriminate|]. split; [split; [split; [split; [reflexivity|split; [split|split]]|split]; vm_compute; try discriminate; reflexivity|vm_compute; discriminate]|].
  split; [reflexivity|]. split; [vm_compute; discriminate|]. split; [|split; vm_compute; reflexivity].
  apply c142_distinct. apply c142_distinct. constructor.
Qed.
(** two years, half-yearly: four coupons *)
Definition ex_coupons : outcome (rresult (list coupon)) := build_schedule Checked true (day_of 2024 3 15) (day_of 2026 3 15) (One (new_south_korea KrKrx)) ModifiedFollowing SemiAnnually 1 0.
Definition has_length (r : outcome (rresult (list coupon))) (n : nat) : bool := match r with Ret (ROk l) => Nat.eqb (length l) n | _ => false end.
Example c143_hypotheses_met : exists cs, build_schedule Checked true (day_of 2024 3 15) (day_of 2026 3 15) (One (new_south_korea KrKrx)) ModifiedFollowing SemiAnnually 1 0 = Ret (ROk cs) /\ length cs = 4%nat.
Proof.
  assert (H : has_length ex_coupons 4 = true) by (vm_compute; reflexivity). unfold has_length in H. fold ex_coupons. destruct ex_coupons as [[cs|]| |]; try discriminate H.
  exists cs. split; [reflexivity|]. apply Nat.eqb_eq. exact H.
Qed.
(** 15 March to 15 September, with no amount given *)
Definition ex_half_row : row := Row (Coupon (day_of 2024 3 15) (day_of 2024 3 15) (day_of 2024 9 15) (day_of 2024 9 16)) None.
Definition ex_half_bond : bond := Bond (gof_Z 100) false [ex_half_row] (Some sixteenth) None None None (day_of 2024 3 15) (day_of 2024 3 15) None (day_of 2024 9 15) (One (new_south_korea KrKrx)) StreetConvention ModifiedFollowing SemiAnnually 0 1.
Lemma ex_ymd : forall d y m dd, (1 <=? m) && (m <=? 12) && (1 <=? dd) && (dd <=? month_days y m) = true -> (od_day d =? day_number y m dd) = true -> ymd d y m dd.
Proof. intros d y m dd V E. apply andb_true_iff in V. destruct V as [V V4]. apply andb_true_iff in V. destruct V as [V V3]. apply andb_true_iff in V. destruct V as [V1 V2]. apply Z.leb_le in V1, V2, V3, V4. split; [split; split; assumption|apply Z.eqb_eq; exact E]. Qed.
Example c144_hypotheses_met : exists x, pays (fun x => x) ex_half_bond ex_eval ex_eval None None ex_half_row x /\ (value x = / 32)%R /\
  Forall2 (fun r x => od_day (payment_date (rw_dates r)) < od_day ex_eval \/ pays (fun x => x) ex_half_bond ex_eval ex_eval None None r x) (bd_rows ex_half_bond) [x].
Proof.
  destruct (c144_half_year (fun x => x) ex_half_bond ex_eval ex_eval None None ex_half_row sixteenth 2024 3 15 2024 9 15) as (x & P & F & V).
  - discriminate.
  - reflexivity.
  - reflexivity.
  - reflexivity.
  - reflexivity.
  - split; [reflexivity|split; [split|split]]; vm_compute; try discriminate; reflexivity.
  - split; [reflexivity|split; [split|split]]; vm_compute; try discriminate; reflexivity.
  - apply ex_ymd; reflexivity.
  - apply ex_ymd; reflexivity.
  - vm_compute. discriminate.
  - intros [H _]. exact (H eq_refl).
  - reflexivity.
  - reflexivity.
  - destruct eighth_value as (_ & _ & _ & ->). rewrite Rabs_pos_eq by lra. apply Rinv_le; [lra|]. rewrite (pow_IZR 2 100). apply IZR_le. vm_compute. discriminate.
  - exists x. split; [exact P|]. split; [|constructor; [right; exact P|constructor]]. rewrite V. destruct eighth_value as (_ & _ & _ & ->). lra.
Qed.
(** the same row of a bond with an index and no curve, and of one with no rate *)
Example c149_hypotheses_met : exists f, od_day ex_eval <= od_day (payment_date (rw_dates ex_half_row)) /\ rw_amount ex_half_row = None /\
  year_fraction (bd_cal ex_half_bond) (calc_start_date (rw_dates ex_half_row)) (calc_end_date (rw_dates ex_half_row)) (bd_dc ex_half_bond) = Ret (ROk f).
Proof.
  destruct c144_hypotheses_met as (x & [H|[H|H]] & _); [discriminate H| |].
  - destruct H as (_ & _ & f & r & _ & Y & _). exists f. split; [vm_compute; discriminate|]. split; [reflexivity|exact Y].
  - destruct H as (_ & t & _ & _ & Q & _). discriminate Q.
Qed.
Print Assumptions c142_record.
Print Assumptions c142_before.
Print Assumptions c142_after.
Print Assumptions c142_ordered.
Print Assumptions c142_distinct.
Print Assumptions c143_new.
Print Assumptions c143_conventions.
Print Assumptions c143_unchecked_refuted.
Print Assumptions c144_flows.
Print Assumptions c144_error.
Print Assumptions c144_half_year.
Print Assumptions c149_no_curve_refuted.
Print Assumptions c149_no_rate_refuted.
