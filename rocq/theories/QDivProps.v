(** QDivProps.v -- dividends: the properties (C123-C127). *)
From Coq Require Import ZArith Arith List Bool Lia Reals Lra.
From Flocq Require Import Core IEEE754.BinarySingleNaN.
From Verif Require Import Base CivilSpec FloatModel FloatFacts KrxModel QDateModel QDateProofs QFindModel QFindSpec QFindProofs QInterpModel QInterpSpec QInterpProofs QStepProps QFloatErr QLinProps QDivModel QDivSpec QDivProofs.
Import ListNotations.
Open Scope Z_scope.

(** ** C123: days as yyyymmdd integers *)
Theorem c123_value : forall y m d ns off, valid_date y m d -> to_yyyymmdd_int (Odt (day_number y m d) ns off) = y * 10000 + m * 100 + d.
Proof.
  intros y m d ns off V. unfold to_yyyymmdd_int. cbn [od_day]. destruct (fields_of_date y m d V) as (-> & -> & ->). reflexivity.
Qed.
Theorem c123_order : forall a b, (to_yyyymmdd_int a < to_yyyymmdd_int b <-> od_day a < od_day b) /\ (to_yyyymmdd_int a = to_yyyymmdd_int b <-> od_day a = od_day b).
Proof.
  intros a b. unfold to_yyyymmdd_int. fold (ymd_int (od_day a)). fold (ymd_int (od_day b)). split; [apply ymd_lt_iff|].
  pose proof (ymd_le_iff (od_day a) (od_day b)). pose proof (ymd_le_iff (od_day b) (od_day a)). lia.
Qed.
Theorem c123_min : forall a b, let m := min_offsetdatetime a b in (m = a \/ m = b) /\ instant m <= instant a /\ instant m <= instant b /\ (instant a = instant b -> m = b).
Proof.
  intros a b. cbn zeta. unfold min_offsetdatetime. destruct (Z.ltb_spec (instant a) (instant b)); (split; [auto|]); (split; [lia|]); (split; [lia|]); intro; [lia|reflexivity].
Qed.
Example c123_hypotheses_met : valid_date 2024 2 29 /\ to_yyyymmdd_int (Odt (day_number 2024 2 29) 0 32400) = 20240229.
Proof. split; [split; cbn; lia|]. apply c123_value. split; cbn; lia. Qed.

(** ** C124: the deduction ratio *)
Lemma map_snd_filter_map : forall (f : odt -> Z) (g : Z -> bool) (ds : list odt) (ys : list f32),
  map snd (List.filter (fun p => g (fst p)) (combine (map f ds) ys)) = map snd (List.filter (fun p => g (f (fst p))) (combine ds ys)).
Proof.
  intros f g. induction ds as [|d ds IH]; intros [|y ys]; cbn [map combine List.filter]; try reflexivity. cbn [fst]. destruct (g (f d)); cbn [map snd]; rewrite IH; reflexivity.
Qed.
Lemma filter_ext' : forall A (f g : A -> bool) l, (forall x, f x = g x) -> List.filter f l = List.filter g l.
Proof. intros A f g l H. induction l as [|x l IH]; [reflexivity|]. cbn. rewrite H, IH. reflexivity. Qed.
Lemma day_leb : forall a b, (to_yyyymmdd_int a <=? to_yyyymmdd_int b) = (od_day a <=? od_day b).
Proof.
  intros a b. pose proof (ymd_le_iff (od_day a) (od_day b)) as H. unfold ymd_int in H. unfold to_yyyymmdd_int.
  destruct (Z.leb_spec (od_day a) (od_day b)) as [L|L]; [apply Z.leb_le; apply H; exact L|apply Z.leb_gt; lia].
Qed.
Lemma skipn_map' : forall A B (f : A -> B) l k, skipn k (map f l) = map f (skipn k l).
Proof. intros A B f. induction l as [|x l IH]; intros [|k]; cbn; auto. Qed.
Lemma ratio_core : forall ds ys eval, by_day ds -> in_time ds -> length ys = length ds -> Exists (fun d => instant eval <= instant d) ds ->
  exists yi it, drop_past ds eval ys (map to_yyyymmdd_int ds) = Ret yi /\ make_interp (snd yi) (running one32 (fst yi)) = Ret (ROk it) /\
  forall v T, dv_interp v = it -> deduction_ratio v T = Ret (ROk (deduct (map snd (coming eval T (combine ds ys))))).
Proof.
  intros ds ys eval BD IT LY EX. destruct (first_coming ds eval) as [F|(k & d & Hd & P & B)].
  { exfalso. apply Exists_exists in EX. destruct EX as (x & Hx & Q). rewrite List.Forall_forall in F. specialize (F x Hx). lia. }
  eexists. rewrite (drop_prefix ds eval ys (map to_yyyymmdd_int ds) LY ltac:(apply map_length) k d Hd P B).
  destruct (interp_ratio (skipn k (map to_yyyymmdd_int ds)) (skipn k ys)) as (it & E & R).
  - rewrite !skipn_length, map_length, LY. reflexivity.
  - intros i j x y Q Hx Hy. rewrite nth_skipn in Hx, Hy. rewrite nth_error_map in Hx, Hy.
    destruct (nth_error ds (k + i)) as [a|] eqn:Ha; [|discriminate Hx]. destruct (nth_error ds (k + j)) as [b|] eqn:Hb; [|discriminate Hy]. cbn in Hx, Hy.
    apply z_lt. assert (x = to_yyyymmdd_int a) by congruence. assert (y = to_yyyymmdd_int b) by congruence. subst x y. apply c123_order. apply (BD (k + i)%nat (k + j)%nat); [lia|assumption|assumption].
  - exists it. split; [reflexivity|]. cbn [fst snd]. split; [exact E|]. intros v T EV. rewrite (R v T EV). do 3 f_equal.
    rewrite skipn_map'. rewrite (map_snd_filter_map to_yyyymmdd_int (fun z => z <=? to_yyyymmdd_int T)). f_equal.
    unfold coming. rewrite (filter_filter _ (fun p => instant eval <=? instant (fst p)) (fun p => od_day (fst p) <=? od_day T)).
    rewrite (filter_suffix _ (fun p => instant eval <=? instant (fst p)) (combine ds ys) k).
    + rewrite skipn_combine. apply filter_ext'. intro p. apply day_leb.
    + intros i p H. destruct (nth_combine _ _ _ _ _ _ H) as [H1 _]. rewrite Z.leb_le. split.
      * intro Q. destruct (Nat.lt_ge_cases i k) as [G|G]; [|exact G]. pose proof (B i _ G H1) as L. apply Z.ltb_lt in L. lia.
      * intro Q. apply Z.ltb_ge in P. destruct (Nat.eq_dec i k) as [->|]; [assert (fst p = d) by congruence; congruence|].
        pose proof (IT k i d (fst p) ltac:(lia) Hd H1). lia.
Qed.
(** dates on increasing days in order of time, not all of them past: the ratio
    is the product of (1 - amount / spot) over the dividends from the
    evaluation date up to the asked day *)
Theorem c124_ratio : forall eval ds amounts ts mk spot, by_day ds -> in_time ds -> length amounts = length ds -> Exists (fun d => instant eval <= instant d) ds ->
  exists v, dividend_new eval (VectorData amounts (Some ds) ts mk) spot = Ret (ROk v) /\
    dividend_ratio v = combine ds (map (fun a => gdiv a spot) amounts) /\
    (forall T, deduction_ratio v T = Ret (ROk (deduct (map snd (coming eval T (dividend_ratio v)))))) /\
    (forall T, price_deduction_ratio (Some v) T = deduction_ratio v T).
Proof.
  intros eval ds amounts ts mk spot BD IT L EX. unfold dividend_new. cbn [vd_dates vd_value].
  destruct ds as [|d0 ds']; [apply Exists_nil in EX; contradiction|]. set (ds := d0 :: ds') in *.
  destruct (ratio_core ds (map (fun a => gdiv a spot) amounts) eval BD IT ltac:(rewrite map_length; exact L) EX) as (yi & it & -> & E & R). cbn [obind]. rewrite E. cbn [rbind].
  eexists. split; [reflexivity|]. split; [reflexivity|]. split; [|reflexivity]. intro T. apply R. reflexivity.
Qed.
Theorem c124_none : forall T, price_deduction_ratio None T = Ret (ROk (gof_Z 1)).
Proof. reflexivity. Qed.
Theorem c124_many : forall eval ds amounts ts mk spot v, by_day ds -> in_time ds -> length amounts = length ds -> Exists (fun d => instant eval <= instant d) ds ->
  dividend_new eval (VectorData amounts (Some ds) ts mk) spot = Ret (ROk v) ->
  forall l, deduction_ratios v l = Ret (ROk (map (fun T => deduct (map snd (coming eval T (dividend_ratio v)))) l)).
Proof.
  intros eval ds amounts ts mk spot v BD IT L EX E l. destruct (c124_ratio eval ds amounts ts mk spot BD IT L EX) as (v' & E' & _ & R & _). rewrite E in E'.
  assert (v' = v) by congruence. subst v'. unfold deduction_ratios. induction l as [|T l IH]; [reflexivity|]. cbn [map_res map]. rewrite R. cbn [rbind]. rewrite IH. reflexivity.
Qed.
Theorem c124_errors : forall eval amounts ts mk spot,
  dividend_new eval (VectorData amounts None ts mk) spot = Ret RErr /\ dividend_new eval (VectorData amounts (Some []) ts mk) spot = Ret RErr.
Proof. intros. split; reflexivity. Qed.
(** a day out of order among the dividends to come is an error *)
Theorem c124_unsorted : forall eval ds amounts ts mk spot i a b, length amounts = length ds -> Forall (fun d => instant eval <= instant d) ds ->
  nth_error ds i = Some a -> nth_error ds (i + 1) = Some b -> od_day b < od_day a -> dividend_new eval (VectorData amounts (Some ds) ts mk) spot = Ret RErr.
Proof.
  intros eval ds amounts ts mk spot i a b L F Ha Hb U. unfold dividend_new. cbn [vd_dates vd_value].
  destruct ds as [|d0 ds']; [destruct i; discriminate Ha|]. set (ds := d0 :: ds') in *. set (ys := map (fun a => gdiv a spot) amounts). assert (LY : length ys = length ds) by (unfold ys; rewrite map_length; exact L).
  assert (P0 : (instant d0 <? instant eval) = false) by (apply Z.ltb_ge; rewrite List.Forall_forall in F; apply F; left; reflexivity).
  rewrite (drop_prefix ds eval ys (map to_yyyymmdd_int ds) LY ltac:(apply map_length) 0%nat d0 eq_refl P0) by (intros j e Q; lia). cbn [obind fst snd skipn].
  unfold make_interp. pose proof (running_length ys one32) as RL. destruct (running one32 ys) as [|r rs] eqn:ER; [unfold ds in LY; cbn in LY, RL; lia|].
  destruct (at_lt _ (r :: rs) (length (r :: rs) - 1) ltac:(cbn; lia)) as (last & _ & ->). cbn [obind].
  destruct (c110_new Z zcmp f32 (map to_yyyymmdd_int ds) (r :: rs) true (Some one32) (Some last)) as [(_ & _ & C & _)|[_ ->]]; [|reflexivity].
  exfalso. apply (C i (to_yyyymmdd_int a) (to_yyyymmdd_int b)); [rewrite nth_error_map, Ha; reflexivity|rewrite nth_error_map, Hb; reflexivity|].
  apply (proj1 (c123_order b a)) in U. unfold zcmp. f_equal. apply Z.compare_gt_iff. exact U.
Qed.
(** the building blocks of the examples: noon UTC, 2% on a price of 100 *)
Definition noon (n : Z) : odt := Odt n (day_ns / 2) 0.
Definition two32 : f32 := gof_Z 2.
Definition ten32 : f32 := gof_Z 10.
Definition hundred : f32 := gof_Z 100.
Definition half32 : f32 := gdiv (gof_Z 1) (gof_Z 2).
Definition gives_ratio (r : outcome (rresult f32)) (x : f32) : bool := match r with Ret (ROk y) => geq y x | _ => false end.
Definition year2024 : list odt := [noon 19800; noon 19900; noon 20000].
Lemma year_by_day : by_day year2024 /\ in_time year2024.
Proof.
  split; intros i j a b Q Ha Hb; destruct i as [|[|[|i]]], j as [|[|[|j]]]; cbn in Ha, Hb; try discriminate; try lia; try (destruct i; discriminate); try (destruct j; discriminate);
    injection Ha as <-; injection Hb as <-; vm_compute; congruence.
Qed.
Example c124_hypotheses_met : by_day year2024 /\ in_time year2024 /\ Exists (fun d => instant (noon 19850) <= instant d) year2024 /\
  match dividend_new (noon 19850) (VectorData [two32; two32; ten32] (Some year2024) [] None) (gof_Z 4) with
  | Ret (ROk v) => gives_ratio (deduction_ratio v (noon 19860)) (gof_Z 1) && gives_ratio (deduction_ratio v (noon 19900)) half32 && gives_ratio (deduction_ratio v (noon 30000)) (gdiv (gof_Z (-3)) (gof_Z 4))
  | _ => false end = true.
Proof.
  split; [apply year_by_day|]. split; [apply year_by_day|]. split; [|vm_compute; reflexivity].
  apply Exists_exists. exists (noon 19900). split; [right; left; reflexivity|]. vm_compute. congruence.
Qed.
(** REFUTED: two dividends on one day: only the first of the two counts on that
    day, both from the next day on *)
Theorem c124_repeated_refuted : let ds := [noon 19900; noon 19900] in
  match dividend_new (noon 19850) (VectorData [two32; two32] (Some ds) [] None) (gof_Z 4) with
  | Ret (ROk v) => gives_ratio (deduction_ratio v (noon 19900)) half32 && gives_ratio (deduction_ratio v (noon 19901)) (gmul half32 half32) &&
                   geq (deduct (map snd (coming (noon 19850) (noon 19900) (dividend_ratio v)))) (gmul half32 half32)
  | _ => false end = true.
Proof. vm_compute. reflexivity. Qed.

(** ** C125: when every dividend is past *)
(** REFUTED: "then nothing is deducted any more": it panics *)
Theorem c125_all_past_refuted : forall eval ds amounts ts mk spot, length amounts = length ds -> ds <> [] -> Forall (fun d => instant d < instant eval) ds ->
  dividend_new eval (VectorData amounts (Some ds) ts mk) spot = Panic.
Proof.
  intros eval ds amounts ts mk spot L N F. unfold dividend_new. cbn [vd_dates vd_value]. destruct ds as [|d0 ds']; [congruence|].
  rewrite (drop_all (d0 :: ds') eval); [reflexivity|rewrite map_length; exact L|rewrite map_length; reflexivity|exact N|exact F].
Qed.
Lemma remove_ends : forall A (l : list A) i, remove_at l i <> Diverge.
Proof. intros A. induction l as [|x l IH]; intros [|i]; cbn; try discriminate. destruct (remove_at l i) eqn:E; cbn; try discriminate. exfalso. exact (IH i E). Qed.
Lemma drop_ends : forall dates eval fuel i c copy ys js, (c <= length dates)%nat -> (length dates - i + (length dates - c) < fuel)%nat -> drop_loop fuel dates eval i c copy ys js <> Diverge.
Proof.
  intros dates eval. induction fuel as [|fuel IH]; intros i c copy ys js Hc Hf; [lia|]. cbn [drop_loop].
  destruct (Nat.ltb_spec i (length dates)) as [G|G]; [|discriminate]. unfold at_. destruct (nth_error dates c) as [d|] eqn:Hd; cbn [obind]; [|discriminate].
  assert (c < length dates)%nat by (apply nth_error_Some; congruence).
  destruct (instant d <? instant eval); [|apply IH; lia].
  destruct (remove_at copy i) eqn:E1; cbn [obind]; try discriminate; [|exfalso; exact (remove_ends _ _ _ E1)].
  destruct (remove_at ys i) eqn:E2; cbn [obind]; try discriminate; [|exfalso; exact (remove_ends _ _ _ E2)].
  destruct (remove_at js i) eqn:E3; cbn [obind]; try discriminate; [|exfalso; exact (remove_ends _ _ _ E3)].
  apply IH; lia.
Qed.
(** the loops end, whatever the lists *)
Theorem c125_ends : forall dates eval ys js, drop_past dates eval ys js <> Diverge.
Proof. intros. apply drop_ends; lia. Qed.
Lemma interp_ends : forall js rs, make_interp js rs <> Diverge.
Proof.
  intros js rs. unfold make_interp. destruct rs as [|r rs]; [discriminate|]. unfold at_. destruct (nth_error _ _) as [x|]; cbn [obind]; [|discriminate].
  destruct (c110_new Z zcmp f32 js (r :: rs) true (Some one32) (Some x)) as [(_ & _ & _ & ->)|[_ ->]]; cbn; discriminate.
Qed.
Lemma update_ends : forall v eval, update_dividend v eval <> Diverge.
Proof.
  intros v eval. unfold update_dividend. destruct (drop_past _ _ _ _) as [yi| | ] eqn:E; cbn [obind]; try discriminate; [|exfalso; exact (c125_ends _ _ _ _ E)].
  destruct (make_interp _ _) as [[it|]| | ] eqn:M; cbn [rbind]; try discriminate. exfalso. exact (interp_ends _ _ M).
Qed.
(** what the constructor guarantees *)
Definition listed (v : dividend) : Prop :=
  dv_ints v = map to_yyyymmdd_int (dv_dates v) /\ length (dv_amounts v) = length (dv_dates v) /\ dv_yields v = map (fun a => gdiv a (dv_spot v)) (dv_amounts v) /\ dv_dates v <> [].
Theorem c125_update_panics_refuted : forall v eval, listed v -> Forall (fun d => instant d < instant eval) (dv_dates v) -> update_dividend v eval = Panic.
Proof.
  intros v eval (E1 & L & E2 & N) F. unfold update_dividend. rewrite (drop_all (dv_dates v) eval); [reflexivity| | |exact N|exact F].
  - rewrite E2, map_length. exact L.
  - rewrite E1. apply map_length.
Qed.
(** and so the evaluation date cannot be moved past the last dividend *)
Theorem c125_set_date_panics_refuted : forall w d k v, In k (w_dobs w) -> nth_error (w_dividends w) k = Some v -> listed v -> Forall (fun x => instant x < instant d) (dv_dates v) ->
  set_date w d = Panic.
Proof.
  intros w d k v Hk Hv L F. unfold set_date. cbn [w_dobs w_pobs].
  assert (NP : forall obs w', w_dividends (notify_prices obs w') = w_dividends w' /\ w_date (notify_prices obs w') = w_date w').
  { induction obs as [|j obs IH]; intro w'; cbn [notify_prices]; [auto|]. destruct (nth_error (w_prices w') j); rewrite !(proj1 (IH _)), !(proj2 (IH _)); auto. }
  destruct (NP (w_pobs w) (World d (w_prices w) (w_dividends w) (w_pobs w) (w_dobs w))) as [D1 D2]. cbn [w_dividends w_date] in D1, D2.
  set (w1 := notify_prices _ _) in *. clearbody w1.
  (* until k is reached its dates do not change *)
  assert (Q : forall obs w', In k obs -> w_date w' = d -> (exists v', nth_error (w_dividends w') k = Some v' /\ listed v' /\ dv_dates v' = dv_dates v) -> notify_dividends obs w' = Panic).
  { induction obs as [|j obs IH]; intros w' HI HD (v' & Hv' & L' & E'); [destruct HI|]. cbn [notify_dividends].
    destruct (Nat.eq_dec j k) as [->|NE].
    - rewrite Hv', HD, c125_update_panics_refuted; [reflexivity|exact L'|rewrite E'; exact F].
    - destruct HI as [HI|HI]; [congruence|]. destruct (nth_error (w_dividends w') j) as [x|] eqn:Hx; [|apply IH; eauto].
      destruct (update_dividend x (w_date w')) as [[x'|]| | ] eqn:EU; cbn [obind]; try reflexivity.
      + apply IH; [exact HI|exact HD|]. exists v'. cbn [w_dividends]. split; [|auto]. rewrite <- Hv'. clear - NE. revert j k NE. induction (w_dividends w') as [|y l IHl]; intros j k NE; [destruct j; reflexivity|].
        destruct j as [|j], k as [|k]; cbn; try reflexivity; [congruence|]. apply IHl. congruence.
      + exfalso. exact (update_ends x (w_date w') EU). }
  apply Q; [exact Hk|exact D2|]. exists v. rewrite D1. auto.
Qed.
Example c125_hypotheses_met : exists v, dividend_new (noon 19850) (VectorData [two32; two32; ten32] (Some year2024) [] None) (gof_Z 4) = Ret (ROk v) /\ listed v /\
  Forall (fun x => instant x < instant (noon 20001)) (dv_dates v).
Proof.
  assert (E : Exists (fun d => instant (noon 19850) <= instant d) year2024) by (apply Exists_exists; exists (noon 19900); split; [right; left; reflexivity|vm_compute; congruence]).
  assert (EX : exists it, dividend_new (noon 19850) (VectorData [two32; two32; ten32] (Some year2024) [] None) (gof_Z 4) = Ret (ROk (Dividend year2024 (map to_yyyymmdd_int year2024) [two32; two32; ten32] (map (fun a => gdiv a (gof_Z 4)) [two32; two32; ten32]) it (gof_Z 4)))).
  { unfold dividend_new. cbn [vd_dates vd_value year2024]. fold year2024.
    destruct (ratio_core year2024 (map (fun a => gdiv a (gof_Z 4)) [two32; two32; ten32]) (noon 19850) (proj1 year_by_day) (proj2 year_by_day) eq_refl E) as (yi & it & -> & M & _).
    cbn [obind]. rewrite M. cbn [rbind]. exists it. reflexivity. }
  destruct EX as [it EX]. eexists. split; [exact EX|]. split; [split; [reflexivity|]; split; [reflexivity|]; split; [reflexivity|discriminate]|].
  repeat constructor; vm_compute; reflexivity.
Qed.

(** ** C126: bumping, and any history of bumps and new evaluation dates *)
(** the days after date1, up to and including date2; a missing date is no limit *)
Definition in_window (date1 date2 : option odt) (d : odt) : bool :=
  match date1 with None => true | Some a => od_day a <? od_day d end && match date2 with None => true | Some b => od_day d <=? od_day b end.
Definition window (date1 date2 : option odt) : Prop :=
  match date1, date2 with Some a, Some b => od_day a < od_day b | _, _ => True end.
Definition representable (d : odt) : Prop := in_range (od_day d) = true.
Lemma one_mul : forall b : f32, is_finite b = true -> gmul one32 b = b.
Proof.
  intros b F. pose proof one_fn as [F1 V1]. fold one32 in F1, V1. pose proof (fin_mul 24 128 one32 b 1 (B2R b) (conj F1 V1) (conj F eq_refl)) as H.
  rewrite Rmult_1_l in H. rewrite (rnd_B2R 24 128) in H.
  unfold gmul. pose proof (Bmult_correct 24 128 p24 e128 mode_NE one32 b) as C. cbn [round_mode] in C. rewrite V1, Rmult_1_l in C.
  change (round radix2 (SpecFloat.fexp 24 128) ZnearestE (B2R b)) with (rnd 24 128 (B2R b)) in C. rewrite (rnd_B2R 24 128) in C.
  rewrite Rlt_bool_true in C by (apply abs_B2R_lt_emax). destruct C as (C1 & C2 & C3). rewrite F1, F in C2. change (is_finite (Bmult mode_NE one32 b) = true) in C2.
  apply B2R_Bsign_inj; [exact C2|exact F|exact C1|]. rewrite C3; [|clear - C2; revert C2; generalize (Bmult mode_NE one32 b); intros [] Q; try reflexivity; discriminate Q].
  replace (Bsign one32) with false by (vm_compute; reflexivity). apply xorb_false_l.
Qed.
Lemma zero_mul_add : forall a b : f32, is_finite a = true -> is_finite b = true -> is_finite (gadd a (gmul (gof_Z 0) b)) = true /\ B2R (gadd a (gmul (gof_Z 0) b)) = B2R a.
Proof.
  intros a b Fa Fb. assert (Z0 : fin 24 128 (gof_Z 0) 0).
  { pose proof (fin_of_Z 24 128 0) as H. rewrite (rnd_int 24 128 0) in H by (apply Z.leb_le; reflexivity). apply H. rewrite Rabs_R0. apply bpow_ge_0. }
  pose proof (fin_mul 24 128 _ _ 0 (B2R b) Z0 (conj Fb eq_refl)) as M. rewrite Rmult_0_l, rnd_0 in M. specialize (M ltac:(rewrite Rabs_R0; apply bpow_ge_0)).
  pose proof (Bplus_correct 24 128 p24 e128 mode_NE a (gmul (gof_Z 0) b) Fa (proj1 M)) as C. cbn [round_mode] in C. rewrite (proj2 M), Rplus_0_r in C.
  change (round radix2 (SpecFloat.fexp 24 128) ZnearestE (B2R a)) with (rnd 24 128 (B2R a)) in C. rewrite (rnd_B2R 24 128) in C.
  rewrite Rlt_bool_true in C by (apply abs_B2R_lt_emax). destruct C as (C1 & C2 & _). split; [exact C2|exact C1].
Qed.
Lemma ymd_bounds : forall d, representable d -> -99999999 < to_yyyymmdd_int d <= 99999999.
Proof.
  intros d H. apply in_range_year in H. pose proof (md_small (od_day d)) as A. unfold to_yyyymmdd_int. lia.
Qed.
(** the interpolator a bump leaves behind *)
Lemma all_core : forall ds ys, by_day ds -> length ys = length ds ->
  exists it, make_interp (map to_yyyymmdd_int ds) (running one32 ys) = Ret (ROk it) /\
  forall v T, dv_interp v = it -> deduction_ratio v T = Ret (ROk (deduct (map snd (List.filter (fun p => od_day (fst p) <=? od_day T) (combine ds ys))))).
Proof.
  intros ds ys BD L. destruct (interp_ratio (map to_yyyymmdd_int ds) ys) as (it & E & R).
  - rewrite map_length. congruence.
  - intros i j x y Q Hx Hy. rewrite nth_error_map in Hx, Hy.
    destruct (nth_error ds i) as [a|] eqn:Ha; [|discriminate Hx]. destruct (nth_error ds j) as [b|] eqn:Hb; [|discriminate Hy]. cbn in Hx, Hy.
    apply z_lt. assert (x = to_yyyymmdd_int a) by congruence. assert (y = to_yyyymmdd_int b) by congruence. subst x y. apply c123_order. exact (BD i j a b Q Ha Hb).
  - exists it. split; [exact E|]. intros v T EV. rewrite (R v T EV). do 3 f_equal. rewrite (map_snd_filter_map to_yyyymmdd_int (fun z => z <=? to_yyyymmdd_int T)). f_equal.
    apply filter_ext'. intro p. apply day_leb.
Qed.
Lemma combine_nth : forall A B (l : list A) (m : list B) i x y, nth_error l i = Some x -> nth_error m i = Some y -> nth_error (combine l m) i = Some (x, y).
Proof.
  intros A B. induction l as [|a l IH]; intros m i x y Hx Hy; [destruct i; discriminate Hx|]. destruct m as [|b m]; [destruct i; discriminate Hy|].
  destruct i as [|i]; cbn in *; [congruence|]. apply IH; assumption.
Qed.
Theorem c126_bump : forall v date1 date2 bump, listed v -> by_day (dv_dates v) -> Forall representable (dv_dates v) -> window date1 date2 ->
  (match date1 with Some a => representable a | None => True end) -> (match date2 with Some b => representable b | None => True end) ->
  Forall (fun a => is_finite a = true) (dv_amounts v) -> is_finite bump = true ->
  exists v', bump_dividend v date1 date2 bump = Ret (ROk tt, v') /\ listed v' /\ dv_dates v' = dv_dates v /\ dv_spot v' = dv_spot v /\
    (forall i d a, nth_error (dv_dates v) i = Some d -> nth_error (dv_amounts v) i = Some a -> exists a', nth_error (dv_amounts v') i = Some a' /\
       (if in_window date1 date2 d then a' = gadd a bump else is_finite a' = true /\ B2R a' = B2R a)) /\
    (forall T, deduction_ratio v' T = Ret (ROk (deduct (map snd (List.filter (fun p => od_day (fst p) <=? od_day T) (dividend_ratio v')))))).
Proof.
  intros v date1 date2 bump (E1 & L & E2 & N) BD RP W R1 R2 FA FB. unfold bump_dividend.
  set (d1 := match date1 with None => -99999999 | Some d => to_yyyymmdd_int d end). set (d2 := match date2 with None => 99999999 | Some d => to_yyyymmdd_int d end).
  assert (LT : d1 < d2).
  { unfold d1, d2. destruct date1 as [a|], date2 as [b|]; cbn in W.
    - apply c123_order. exact W.
    - pose proof (ymd_bounds a R1). apply in_range_year in R1. destruct (date_month_spec (od_day a)) as [Q _]. pose proof (day_small (od_day a)). unfold to_yyyymmdd_int. lia.
    - pose proof (ymd_bounds b R2). lia.
    - lia. }
  destruct (Z.leb_spec d2 d1) as [|_]; [lia|].
  assert (IW : forall d, representable d -> (d1 <? to_yyyymmdd_int d) && (to_yyyymmdd_int d <=? d2) = in_window date1 date2 d).
  { intros d Hd. pose proof (ymd_bounds d Hd) as B. unfold d1, d2, in_window. f_equal.
    - destruct date1 as [a|]; [|apply Z.ltb_lt; lia]. pose proof (proj1 (c123_order a d)) as Q. destruct (Z.ltb_spec (od_day a) (od_day d)); [apply Z.ltb_lt|apply Z.ltb_ge]; lia.
    - destruct date2 as [b|]; [apply day_leb|apply Z.leb_le; lia]. }
  set (mask := map _ (dv_ints v)). set (amounts := map _ (combine (dv_amounts v) mask)).
  assert (LA : length amounts = length (dv_dates v)).
  { unfold amounts, mask. rewrite map_length, combine_length, map_length, E1, map_length. lia. }
  destruct (all_core (dv_dates v) (map (fun a => gdiv a (dv_spot v)) amounts) BD ltac:(rewrite map_length; exact LA)) as (it & M & R). rewrite E1, M. cbn [obind].
  eexists. split; [reflexivity|]. split; [split; [reflexivity|]; split; [exact LA|]; split; [reflexivity|exact N]|]. split; [reflexivity|]. split; [reflexivity|]. split; [|intro T; apply R; reflexivity].
  intros i d a Hd Ha. cbn [dv_amounts]. assert (RD : representable d) by (rewrite List.Forall_forall in RP; apply RP; eauto using nth_error_In).
  assert (FAa : is_finite a = true) by (rewrite List.Forall_forall in FA; apply FA; eauto using nth_error_In).
  assert (HM : nth_error mask i = Some (if in_window date1 date2 d then one32 else gof_Z 0)).
  { unfold mask. rewrite nth_error_map, E1, nth_error_map, Hd. cbn. rewrite (IW d RD). reflexivity. }
  assert (HC : nth_error (combine (dv_amounts v) mask) i = Some (a, if in_window date1 date2 d then one32 else gof_Z 0)).
  { apply combine_nth; assumption. }
  eexists. unfold amounts. rewrite nth_error_map, HC. cbn [option_map fst snd]. split; [reflexivity|].
  destruct (in_window date1 date2 d); [rewrite one_mul by exact FB; reflexivity|]. apply zero_mul_add; assumption.
Qed.
Theorem c126_bad_window : forall v a b bump, od_day b <= od_day a -> bump_dividend v (Some a) (Some b) bump = Ret (RErr, v).
Proof.
  intros v a b bump H. unfold bump_dividend. destruct (Z.leb_spec (to_yyyymmdd_int b) (to_yyyymmdd_int a)) as [|G]; [reflexivity|]. apply c123_order in G. lia.
Qed.
(** one call on a dividend, and what it leaves *)
Inductive call : Type := CBump (d1 d2 : option odt) (bump : f32) | CDate (e : odt).
Definition called (v : dividend) (c : call) (v' : dividend) : Prop :=
  match c with
  | CBump d1 d2 b => exists r, bump_dividend v d1 d2 b = Ret (r, v')
  | CDate e => update_dividend v e = Ret (ROk v') \/ (update_dividend v e = Ret RErr /\ v' = v)
  end.
Inductive history (v0 : dividend) : list call -> dividend -> Prop :=
  | h_start : history v0 [] v0
  | h_call : forall cs v c v', history v0 cs v -> called v c v' -> history v0 (cs ++ [c]) v'.
Lemma called_listed : forall v c v', listed v -> called v c v' -> listed v' /\ dv_dates v' = dv_dates v /\ dv_spot v' = dv_spot v.
Proof.
  intros v c v' LV C. pose proof LV as (E1 & L & E2 & N). destruct c as [d1 d2 b|e]; cbn in C.
  - destruct C as [r C]. revert C. unfold bump_dividend. destruct (_ <=? _); [intro C; assert (v' = v) by congruence; subst; auto|].
    set (mask := map _ (dv_ints v)). set (amounts := map _ (combine (dv_amounts v) mask)).
    assert (LA : length amounts = length (dv_dates v)) by (unfold amounts, mask; rewrite map_length, combine_length, map_length, E1, map_length; lia).
    destruct (make_interp _ _) as [[it|]| | ]; cbn [obind]; intro C; try discriminate C.
    + assert (EV : v' = Dividend (dv_dates v) (dv_ints v) amounts (map (fun a => gdiv a (dv_spot v)) amounts) it (dv_spot v)) by congruence. subst v'. unfold listed. cbn. auto.
    + assert (EV : v' = Dividend (dv_dates v) (dv_ints v) amounts (map (fun a => gdiv a (dv_spot v)) amounts) (dv_interp v) (dv_spot v)) by congruence. subst v'. unfold listed. cbn. auto.
  - destruct C as [C|[_ ->]]; [|auto]. revert C. unfold update_dividend. destruct (drop_past _ _ _ _); cbn [obind]; try discriminate. destruct (make_interp _ _) as [[it|]| | ]; cbn [rbind]; intro C; try discriminate C.
    assert (EV : v' = Dividend (dv_dates v) (dv_ints v) (dv_amounts v) (dv_yields v) it (dv_spot v)) by congruence. subst v'. unfold listed. cbn. auto.
Qed.
Lemma history_listed : forall v0 cs v, listed v0 -> history v0 cs v -> listed v /\ dv_dates v = dv_dates v0 /\ dv_spot v = dv_spot v0.
Proof.
  intros v0 cs v L H. induction H as [|cs v c v' H (A & B & C) Q]; [auto|]. destruct (called_listed v c v' A Q) as (A' & B' & C'). split; [exact A'|]. split; congruence.
Qed.
Lemma update_ratio : forall v e, listed v -> by_day (dv_dates v) -> in_time (dv_dates v) -> Exists (fun d => instant e <= instant d) (dv_dates v) ->
  exists v', update_dividend v e = Ret (ROk v') /\ dividend_ratio v' = dividend_ratio v /\ get_dividend v' = get_dividend v /\ listed v' /\ dv_dates v' = dv_dates v /\
    forall T, deduction_ratio v' T = Ret (ROk (deduct (map snd (coming e T (dividend_ratio v))))).
Proof.
  intros v e LV BD IT EX. pose proof LV as (E1 & L & E2 & N). unfold update_dividend. rewrite E1.
  destruct (ratio_core (dv_dates v) (dv_yields v) e BD IT ltac:(rewrite E2, map_length; exact L) EX) as (yi & it & -> & M & R). cbn [obind]. rewrite M. cbn [rbind].
  eexists. split; [reflexivity|]. split; [reflexivity|]. split; [reflexivity|]. split; [unfold listed; cbn; auto|]. split; [reflexivity|]. intro T. apply R. reflexivity.
Qed.
(** whatever has been called before, after the next evaluation date the ratios
    are those of the yields then listed *)
Theorem c126_history : forall eval ds amounts ts mk spot v0 cs v e, by_day ds -> in_time ds -> length amounts = length ds -> ds <> [] ->
  dividend_new eval (VectorData amounts (Some ds) ts mk) spot = Ret (ROk v0) -> history v0 cs v -> Exists (fun d => instant e <= instant d) ds ->
  exists v', update_dividend v e = Ret (ROk v') /\ dividend_ratio v' = dividend_ratio v /\ map fst (dividend_ratio v) = ds /\
    forall T, deduction_ratio v' T = Ret (ROk (deduct (map snd (coming e T (dividend_ratio v))))).
Proof.
  intros eval ds amounts ts mk spot v0 cs v e BD IT L N E H EX.
  assert (S0 : listed v0 /\ dv_dates v0 = ds).
  { revert E. unfold dividend_new. cbn [vd_dates vd_value]. destruct ds as [|d0 ds']; [congruence|]. destruct (drop_past _ _ _ _); cbn [obind]; try discriminate.
    destruct (make_interp _ _) as [[it|]| | ]; cbn [rbind]; intro E; try discriminate E.
    assert (EV : v0 = Dividend (d0 :: ds') (map to_yyyymmdd_int (d0 :: ds')) amounts (map (fun a => gdiv a spot) amounts) it spot) by congruence. subst v0. unfold listed. cbn [dv_dates dv_ints dv_amounts dv_yields dv_spot]. auto. }
  destruct S0 as [L0 D0]. destruct (history_listed v0 cs v L0 H) as (LV & DV & _). rewrite <- D0, <- DV in *.
  destruct (update_ratio v e LV BD IT EX) as (v' & E' & D' & _ & _ & _ & R'). exists v'. split; [exact E'|]. split; [exact D'|]. split; [|exact R'].
  unfold dividend_ratio. destruct LV as (_ & LL & E2 & _). rewrite E2. clear - LL. revert LL. generalize (dv_amounts v). generalize (dv_dates v).
  induction l as [|x l IH]; intros [|y m] Q; try discriminate Q; [reflexivity|]. cbn. f_equal. apply IH. cbn in Q. lia.
Qed.
Example c126_hypotheses_met : window (Some (noon 19850)) (Some (noon 19900)) /\ in_window (Some (noon 19850)) (Some (noon 19900)) (noon 19900) = true /\
  in_window (Some (noon 19850)) (Some (noon 19900)) (noon 19850) = false /\ Forall representable year2024 /\
  match dividend_new (noon 19850) (VectorData [two32; two32; ten32] (Some year2024) [] None) (gof_Z 4) with
  | Ret (ROk v) => match bump_dividend v (Some (noon 19850)) (Some (noon 19900)) (gof_Z (-1)) with
                   | Ret (ROk _, v') => gives_ratio (deduction_ratio v' (noon 19900)) (gdiv (gof_Z 3) (gof_Z 8))
                   | _ => false end
  | _ => false end = true.
Proof.
  split; [vm_compute; reflexivity|]. split; [vm_compute; reflexivity|]. split; [vm_compute; reflexivity|]. split; [|vm_compute; reflexivity].
  repeat constructor; vm_compute; reflexivity.
Qed.
(** REFUTED: "a bump of 0 changes no ratio": a bump brings back the dividends
    before the evaluation date *)
Theorem c126_zero_bump_refuted :
  match dividend_new (noon 19850) (VectorData [two32; two32; ten32] (Some year2024) [] None) (gof_Z 4) with
  | Ret (ROk v) => match bump_dividend v None None (gof_Z 0) with
                   | Ret (ROk _, v') => gives_ratio (deduction_ratio v (noon 19860)) (gof_Z 1) && gives_ratio (deduction_ratio v' (noon 19860)) half32
                   | _ => false end
  | _ => false end = true.
Proof. vm_compute. reflexivity. Qed.
(** REFUTED: "a bump that fails changes nothing": with a past dividend out of
    order the amounts are changed, then the error *)
Theorem c126_failed_bump_refuted : let ds := [noon 19900; noon 19850; noon 20000] in
  match dividend_new (noon 19950) (VectorData [two32; two32; ten32] (Some ds) [] None) (gof_Z 4) with
  | Ret (ROk v) => match bump_dividend v None None (gof_Z 1) with
                   | Ret (RErr, v') => match dv_amounts v' with a :: _ => geq a (gof_Z 3) | [] => false end
                   | _ => false end
  | _ => false end = true.
Proof. vm_compute. reflexivity. Qed.

(** ** C127: a price follows the evaluation date *)
Lemma forward_fold : forall l a b x, roll_forward l a b x = fold_left (fun p y => gmul p (gsub (gof_Z 1) y)) (map snd (between a b l)) x.
Proof.
  induction l as [|[d y] l IH]; intros a b x; [reflexivity|]. cbn [roll_forward]. unfold between. cbn [List.filter fst]. destruct ((instant a <? instant d) && (instant d <=? instant b)); cbn [map snd fold_left]; rewrite IH; reflexivity.
Qed.
Lemma back_fold : forall l a b x, roll_back l b a x = fold_left (fun p y => gdiv p (gsub (gof_Z 1) y)) (map snd (between a b l)) x.
Proof.
  induction l as [|[d y] l IH]; intros a b x; [reflexivity|]. cbn [roll_back]. unfold between. cbn [List.filter fst]. destruct ((instant a <? instant d) && (instant d <=? instant b)); cbn [map snd fold_left]; rewrite IH; reflexivity.
Qed.
Theorem c127_forward : forall l m e, instant (mp_dt m) < instant e ->
  roll_price (Some l) m e = MarketPrice (fold_left (fun p y => gmul p (gsub (gof_Z 1) y)) (map snd (between (mp_dt m) e l)) (mp_value m)) e (mp_div m).
Proof. intros l m e H. unfold roll_price. destruct (Z.ltb_spec (instant (mp_dt m)) (instant e)); [|lia]. rewrite forward_fold. reflexivity. Qed.
Theorem c127_back : forall l m e, instant e <= instant (mp_dt m) ->
  roll_price (Some l) m e = MarketPrice (fold_left (fun p y => gdiv p (gsub (gof_Z 1) y)) (map snd (between e (mp_dt m) l)) (mp_value m)) e (mp_div m).
Proof. intros l m e H. unfold roll_price. destruct (Z.ltb_spec (instant (mp_dt m)) (instant e)); [lia|]. rewrite back_fold. reflexivity. Qed.
Lemma between_none : forall a b l, instant b <= instant a -> between a b l = [].
Proof.
  intros a b l H. unfold between. induction l as [|[d y] l IH]; [reflexivity|]. cbn [List.filter fst].
  destruct (Z.ltb_spec (instant a) (instant d)); cbn [andb]; [|exact IH]. destruct (Z.leb_spec (instant d) (instant b)); [lia|exact IH].
Qed.
(** told the same date (the same point in time) again: nothing changes *)
Theorem c127_again : forall l m e e', instant e' = instant e -> mp_value (roll_price (Some l) (roll_price (Some l) m e) e') = mp_value (roll_price (Some l) m e) /\
  roll_price (Some l) (roll_price (Some l) m e) e = roll_price (Some l) m e.
Proof.
  intros l m e e' H. assert (D : mp_dt (roll_price (Some l) m e) = e) by (unfold roll_price; destruct (_ <? _); reflexivity).
  rewrite (c127_back l (roll_price (Some l) m e) e') by (rewrite D; lia). rewrite (c127_back l (roll_price (Some l) m e) e) by (rewrite D; lia).
  rewrite D, !between_none by lia. cbn [map fold_left mp_value mp_div]. split; [reflexivity|]. destruct (roll_price (Some l) m e) as [v d k] eqn:E. cbn in *. congruence.
Qed.
(** without dividends crossed the value stays *)
Theorem c127_quiet : forall l m e, (forall d y, In (d, y) l -> ~ (instant (mp_dt m) < instant d <= instant e) /\ ~ (instant e < instant d <= instant (mp_dt m))) ->
  mp_value (roll_price (Some l) m e) = mp_value m.
Proof.
  intros l m e H. assert (Q : forall a b, (forall d y, In (d, y) l -> ~ (instant a < instant d <= instant b)) -> between a b l = []).
  { intros a b. clear. induction l as [|[d y] l IH]; intro H; [reflexivity|]. unfold between in *. cbn [List.filter fst]. rewrite IH by (intros d' y' Hi; apply (H d' y'); right; exact Hi).
    destruct (Z.ltb_spec (instant a) (instant d)); cbn [andb]; [|reflexivity]. destruct (Z.leb_spec (instant d) (instant b)); [|reflexivity]. exfalso. apply (H d y); [left; reflexivity|lia]. }
  destruct (Z.lt_ge_cases (instant (mp_dt m)) (instant e)).
  - rewrite c127_forward by lia. rewrite Q; [reflexivity|]. intros d y Hi. apply (proj1 (H d y Hi)).
  - rewrite c127_back by lia. rewrite Q; [reflexivity|]. intros d y Hi. apply (proj2 (H d y Hi)).
Qed.
(** a price without dividend stays as it is, its date included *)
Theorem c127_no_dividend : forall m e, roll_price None m e = m.
Proof. reflexivity. Qed.
Definition half_yearly : list (odt * f32) := [(noon 19900, half32); (noon 20000, half32)].
Example c127_hypotheses_met : geq (mp_value (roll_price (Some half_yearly) (MarketPrice hundred (noon 19850) (Some 0%nat)) (noon 19900))) (gof_Z 50) &&
  geq (mp_value (roll_price (Some half_yearly) (MarketPrice hundred (noon 19850) (Some 0%nat)) (noon 20100))) (gof_Z 25) &&
  geq (mp_value (roll_price (Some half_yearly) (MarketPrice hundred (noon 20000) (Some 0%nat)) (noon 19900))) (gof_Z 200) = true.
Proof. vm_compute. reflexivity. Qed.
Print Assumptions c123_value.
Print Assumptions c123_order.
Print Assumptions c123_min.
Print Assumptions c124_ratio.
Print Assumptions c124_none.
Print Assumptions c124_many.
Print Assumptions c124_errors.
Print Assumptions c124_unsorted.
Print Assumptions c124_repeated_refuted.
Print Assumptions c125_all_past_refuted.
Print Assumptions c125_ends.
Print Assumptions c125_update_panics_refuted.
Print Assumptions c125_set_date_panics_refuted.
Print Assumptions c126_bump.
Print Assumptions c126_bad_window.
Print Assumptions c126_history.
Print Assumptions c126_zero_bump_refuted.
Print Assumptions c126_failed_bump_refuted.
Print Assumptions c127_forward.
Print Assumptions c127_back.
Print Assumptions c127_again.
Print Assumptions c127_quiet.
Print Assumptions c127_no_dividend.
