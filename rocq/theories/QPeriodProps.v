(** QPeriodProps.v -- period strings: the properties (C96-C101). *)
From Coq Require Import ZArith List Bool Ascii String Lia.
From Verif Require Import Base CivilSpec QDateModel QDateProofs QCalModel QCalSpec QCalProps QPeriodModel QPeriodSpec QPeriodProofs.
Import ListNotations.
Open Scope Z_scope.

(** ** C96: a period string is read as written, or refused *)
Theorem c96_read_as_written : forall p, well_formed p ->
  captures all_units (written p) = p /\
  (Forall (fun x => In (snd x) [UY; UM; UW; UD]) p -> captures date_units (written p) = p) /\
  forall ds u, In (ds, u) p -> parse_i64 ds = (if value_of ds <? 2 ^ 63 then Ret (value_of ds) else Panic) /\
    parse_i32 ds = (if value_of ds <? 2 ^ 31 then Ret (value_of ds) else Panic).
Proof.
  intros p W. split; [apply captures_written; exact W|]. split; [intro D; apply captures_written_date; assumption|].
  intros ds u H. unfold parse_i64, parse_i32. rewrite !number_value. split.
  - replace (value_of ds <=? 9223372036854775807) with (value_of ds <? 2 ^ 63); [reflexivity|].
    apply eq_true_iff_eq. rewrite Z.ltb_lt, Z.leb_le. lia.
  - replace (value_of ds <=? 2147483647) with (value_of ds <? 2 ^ 31); [reflexivity|].
    apply eq_true_iff_eq. rewrite Z.ltb_lt, Z.leb_le. lia.
Qed.
(** a string without digits is refused by all four functions *)
Lemma captures_no_digit : forall us n s, Forall (fun c => is_digit c = false) s -> captures_from n us s = [].
Proof.
  intros us. induction n as [|n IH]; intros s F; [reflexivity|]. destruct s as [|c s]; [reflexivity|].
  inversion F as [|? ? Hc Hs]; subst. cbn [captures_from]. rewrite Hc. apply IH. exact Hs.
Qed.
Theorem c96_no_number_panics : forall d n s, Forall (fun c => ~ (48 <= nat_of_ascii c <= 57)%nat) s ->
  add_period d s = Panic /\ sub_period d s = Panic /\ add_period_date n s = Panic /\ sub_period_date n s = Panic.
Proof.
  intros d n s F. assert (G : Forall (fun c => is_digit c = false) s).
  { eapply Forall_impl; [|exact F]. cbn. intros c Hc. apply not_true_is_false. rewrite is_digit_iff. exact Hc. }
  unfold add_period, sub_period, add_period_date, sub_period_date, captures. rewrite !captures_no_digit by exact G. auto.
Qed.
Example c96_hypotheses_met : written [(str "1", UY); (str "06", UM); (str "90", Umin)] = str "1Y06M90min" /\
  well_formed [(str "1", UY); (str "06", UM); (str "90", Umin)] /\ value_of (str "06") = 6.
Proof.
  split; [reflexivity|]. split; [|reflexivity]. unfold well_formed, numeral.
  repeat (apply Forall_cons || apply Forall_nil); cbn; (split; [discriminate|]); repeat constructor; cbn; lia.
Qed.
(** REFUTED: other strings are not refused.  A sign and a fraction are dropped
    and of several units the last one counts. *)
(** more generally, without a digit followed by a unit *)
Theorem c96_no_period_panics : forall d s, ~ has_period s -> add_period d s = Panic /\ sub_period d s = Panic.
Proof. intros d s H. apply captures_none in H. unfold add_period, sub_period. rewrite H. auto. Qed.
Example c96_no_period_met : ~ has_period (str "12 M") /\ has_period (str "x12M").
Proof. split; [apply captures_none; reflexivity|]. exists (str "x1"), "2"%char, UM, []. split; [cbn; lia|reflexivity]. Qed.
Theorem c96_malformed_refuted : forall d,
  add_period d (str "-1M") = add_period d (str "1M") /\
  add_period d (str "1.5Y") = add_period d (str "5Y") /\
  add_period d (str "1YM") = add_period d (str "1M") /\
  add_period d (str "3 months or 2D") = add_period d (str "2D") /\
  (forall s, In s [str "-1M"; str "1.5Y"; str "1YM"; str "3 months or 2D"] -> forall p, well_formed p -> written p <> s).
Proof.
  intro d. repeat (split; [reflexivity|]). intros s H p W E.
  assert (C : captures all_units s = p) by (rewrite <- E; apply captures_written; exact W). subst p.
  cbn [In] in H. destruct H as [H|[H|[H|[H|[]]]]]; subst s; vm_compute in E; discriminate E.
Qed.

(** ** C97: years and months *)
Lemma numeral_digits : forall ds, numeral ds -> 0 <= value_of ds.
Proof. intros ds [_ F]. apply value_nonneg. exact F. Qed.

Theorem c97_add_months : forall y m d ns off ds u k, civil_ok y m d ns -> numeral ds -> value_of ds < 2 ^ 31 ->
  months_of u = Some k ->
  (representable_year (year_after y m (k * value_of ds)) -> exists n',
     add_period (civil y m d ns off) (ds ++ unit_name u) = Ret (Odt n' ns off) /\ months_after y m d (k * value_of ds) n') /\
  (~ representable_year (year_after y m (k * value_of ds)) -> add_period (civil y m d ns off) (ds ++ unit_name u) = Panic).
Proof.
  intros y m d ns off ds u k (Hy & V & Hns) N L U. pose proof (numeral_digits ds N) as P.
  rewrite add_period_one by (try assumption; lia).
  destruct u; cbn [months_of] in U; try discriminate U; assert (K : k = 12 \/ k = 1) by (injection U; lia).
  - assert (k = 12) by congruence. subst k. unfold add_one, civil. rewrite as_i32_small by lia. cbn [od_day od_ns od_off].
    destruct (add_years_ok y m d V (value_of ds)) as [A B]. split; intro R.
    + destruct (A R) as (n' & -> & M). exists n'. split; [reflexivity|exact M].
    + rewrite (B R). reflexivity.
  - assert (k = 1) by congruence. subst k. rewrite Z.mul_1_l. unfold add_one, civil. rewrite as_i32_small by lia. cbn [od_day od_ns od_off].
    destruct (add_months_ok y m d V (value_of ds) P) as [A B]. split; intro R.
    + destruct (A R) as (n' & -> & M). exists n'. split; [reflexivity|exact M].
    + rewrite (B R). reflexivity.
Qed.
(** the date so many months later is unique, and it grows with the date and with the months *)
Theorem c97_months_after_unique : forall y m d k a b, months_after y m d k a -> months_after y m d k b -> a = b.
Proof. exact months_after_unique. Qed.
Theorem c97_monotone : forall y1 m1 d1 y2 m2 d2 ns1 ns2 off ds u k a b,
  civil_ok y1 m1 d1 ns1 -> civil_ok y2 m2 d2 ns2 -> numeral ds -> value_of ds < 2 ^ 31 -> months_of u = Some k ->
  day_number y1 m1 d1 <= day_number y2 m2 d2 ->
  add_period (civil y1 m1 d1 ns1 off) (ds ++ unit_name u) = Ret a -> add_period (civil y2 m2 d2 ns2 off) (ds ++ unit_name u) = Ret b ->
  od_day a <= od_day b.
Proof.
  intros y1 m1 d1 y2 m2 d2 ns1 ns2 off ds u k a b C1 C2 N L U H A B.
  destruct (c97_add_months y1 m1 d1 ns1 off ds u k C1 N L U) as [A1 A2].
  destruct (c97_add_months y2 m2 d2 ns2 off ds u k C2 N L U) as [B1 B2].
  destruct (Z_le_gt_dec (-9999) (year_after y1 m1 (k * value_of ds))) as [P1|P1];
    [destruct (Z_le_gt_dec (year_after y1 m1 (k * value_of ds)) 9999) as [P2|P2]|].
  2,3: rewrite A2 in A by (unfold representable_year; lia); discriminate A.
  destruct (Z_le_gt_dec (-9999) (year_after y2 m2 (k * value_of ds))) as [Q1|Q1];
    [destruct (Z_le_gt_dec (year_after y2 m2 (k * value_of ds)) 9999) as [Q2|Q2]|].
  2,3: rewrite B2 in B by (unfold representable_year; lia); discriminate B.
  destruct (A1 (conj P1 P2)) as (a' & EA & MA). destruct (B1 (conj Q1 Q2)) as (b' & EB & MB).
  rewrite EA in A. rewrite EB in B. injection A as <-. injection B as <-. cbn [od_day].
  destruct C1 as (_ & V1 & _), C2 as (_ & V2 & _). exact (months_after_mono _ _ _ _ _ _ _ _ _ V1 V2 H MA MB).
Qed.
Theorem c97_month_numbers : forall m, 1 <= m <= 12 -> from_i32_to_month (from_month_to_i32 m) = Ret m /\
  forall i, (i < 0 \/ 11 < i) -> from_i32_to_month i = Panic.
Proof.
  intros m Hm. unfold from_i32_to_month, from_month_to_i32. split.
  - assert (A : (0 <=? m - 1) && (m - 1 <=? 11) = true) by (apply andb_true_iff; rewrite !Z.leb_le; lia).
    rewrite A. f_equal. lia.
  - intros i Hi. assert (A : (0 <=? i) && (i <=? 11) = false) by (apply andb_false_iff; rewrite !Z.leb_gt; lia). rewrite A. reflexivity.
Qed.
Example c97_hypotheses_met : civil_ok 2023 11 30 36000000000000 /\ numeral (str "3") /\ value_of (str "3") < 2 ^ 31 /\
  months_of UM = Some 1 /\ representable_year (year_after 2023 11 (1 * 3)) /\
  add_period (civil 2023 11 30 36000000000000 32400) (str "3M") = Ret (civil 2024 2 29 36000000000000 32400).
Proof.
  split; [|split; [|split; [reflexivity|split; [reflexivity|split; [|reflexivity]]]]].
  - split; [unfold representable_year; lia|]. split; [split; [lia|change (month_days 2023 11) with 30; lia]|unfold day_ns; lia].
  - split; [discriminate|]. repeat constructor; cbn; lia.
  - change (year_after 2023 11 (1 * 3)) with 2024. unfold representable_year. lia.
Qed.
(** REFUTED beyond 2^31: the number wraps round, so that this many months is one month less *)
Theorem c97_wrap_refuted : value_of (str "4294967295") = 4294967295 /\
  add_period (civil 2023 11 30 0 0) (str "4294967295M") = Ret (civil 2023 10 30 0 0) /\
  add_period (civil 2023 11 30 0 0) (str "4294967295Y") = Ret (civil 2022 11 30 0 0).
Proof. repeat split. Qed.

(** ** C98: weeks, days, hours, minutes and seconds *)
Definition odt_whole (d : odt) : Prop := 0 <= od_ns d < day_ns.
Lemma length_ns : forall u l, length_of u = Some l -> unit_ns u = l.
Proof. intros u l H. destruct u; cbn [length_of] in H; try discriminate H; injection H as <-; reflexivity. Qed.
Lemma add_one_length : forall t0 d v u l, length_of u = Some l -> add_one t0 d v u = add_ns d (v * l) /\ sub_one t0 d v u = add_ns d (- (v * l)).
Proof.
  intros t0 d v u l H. rewrite <- (length_ns u l H). destruct u; cbn [length_of] in H; try discriminate H; split; reflexivity.
Qed.
(** the local day of a point in time, at the offset of [d] *)
Definition day_of_instant (d : odt) (t : Z) : Z := (t + od_off d * 1000000000) / (24 * 3600 * 1000000000).
Theorem c98_shift : forall d ds u l, odt_whole d -> numeral ds -> value_of ds < 2 ^ 63 -> length_of u = Some l ->
  forall f sg, (f, sg) = (add_period, 1) \/ (f, sg) = (sub_period, -1) ->
  (date_min <= day_of_instant d (instant d + sg * (value_of ds * l)) <= date_max -> exists d',
    f d (ds ++ unit_name u) = Ret d' /\ instant d' = instant d + sg * (value_of ds * l) /\ od_off d' = od_off d /\ odt_whole d') /\
  (~ (date_min <= day_of_instant d (instant d + sg * (value_of ds * l)) <= date_max) -> f d (ds ++ unit_name u) = Panic).
Proof.
  intros d ds u l W N L U f sg F.
  assert (E : f d (ds ++ unit_name u) = add_ns d (sg * (value_of ds * l))).
  { destruct (add_one_length (od_ns d) d (value_of ds) u l U) as [A B]. destruct F as [F|F]; injection F as -> ->.
    - rewrite add_period_one, A by assumption. f_equal. lia.
    - rewrite sub_period_one, B by assumption. f_equal; lia. }
  rewrite E. destruct (add_ns_spec d (sg * (value_of ds * l)) W) as [A B].
  assert (D : day_of_instant d (instant d + sg * (value_of ds * l)) = (od_day d * day_ns + od_ns d + sg * (value_of ds * l)) / day_ns).
  { unfold day_of_instant, instant. change (24 * 3600 * 1000000000) with day_ns. f_equal. lia. }
  rewrite D. unfold in_range in *. split; intro R.
  - destruct A as (d' & A1 & A2 & A3 & A4 & _); [apply andb_true_iff; rewrite !Z.leb_le; exact R|]. exists d'. auto.
  - apply B. apply andb_false_iff. rewrite !Z.leb_gt. lia.
Qed.
(** so adding and subtracting them undo each other *)
Theorem c98_undo : forall d ds u l d', odt_whole d -> in_range (od_day d) = true -> numeral ds -> value_of ds < 2 ^ 63 -> length_of u = Some l ->
  add_period d (ds ++ unit_name u) = Ret d' -> sub_period d' (ds ++ unit_name u) = Ret d.
Proof.
  intros d ds u l d' W R N L U H. destruct (add_one_length (od_ns d) d (value_of ds) u l U) as [A _].
  rewrite add_period_one, A in H by assumption. rewrite sub_period_one by assumption.
  destruct (add_one_length (od_ns d') d' (value_of ds) u l U) as [_ ->]. set (k := value_of ds * l) in *.
  unfold add_ns in H. destruct (in_range ((od_day d * day_ns + od_ns d + k) / day_ns)) eqn:E; [|discriminate H].
  injection H as <-. unfold add_ns. cbn [od_day od_ns od_off].
  set (t := od_day d * day_ns + od_ns d + k) in *.
  assert (Q : t / day_ns * day_ns + t mod day_ns + - k = od_day d * day_ns + od_ns d).
  { pose proof (Z.div_mod t day_ns ltac:(unfold day_ns; lia)). subst t. lia. }
  rewrite Q. assert (D : (od_day d * day_ns + od_ns d) / day_ns = od_day d /\ (od_day d * day_ns + od_ns d) mod day_ns = od_ns d).
  { unfold odt_whole, day_ns in *. Z.to_euclidean_division_equations; lia. }
  destruct D as [-> ->]. rewrite R. destruct d; reflexivity.
Qed.
Example c98_hypotheses_met : odt_whole (civil 2024 2 28 82800000000000 0) /\ length_of Umin = Some 60000000000 /\
  add_period (civil 2024 2 28 82800000000000 0) (str "90min") = Ret (civil 2024 2 29 1800000000000 0) /\
  sub_period (civil 2024 2 29 1800000000000 0) (str "90min") = Ret (civil 2024 2 28 82800000000000 0).
Proof. split; [unfold odt_whole; cbn [od_ns civil]; unfold day_ns; lia|]. repeat split. Qed.

(** ** C99: several units apply from left to right *)
Definition keeps_time (p : list (list ascii * punit)) : Prop := Forall (fun x => In (snd x) [UY; UM; UW; UD]) p.
Definition no_months (p : list (list ascii * punit)) : Prop := Forall (fun x => ~ In (snd x) [UY; UM]) p.

Lemma each_app : forall T pr (f : T -> Z -> punit -> outcome T) p q d,
  each_capture pr f (p ++ q) d = let! d' := each_capture pr f p d in each_capture pr f q d'.
Proof.
  intros T pr f. induction p as [|[ds u] p IH]; intros q d; [reflexivity|]. cbn [app each_capture].
  destruct (pr ds); cbn [obind]; try reflexivity. destruct (f d a u); cbn [obind]; try reflexivity. apply IH.
Qed.
Lemma add_ns_days : forall d v, 0 <= od_ns d < day_ns -> forall d', add_ns d (v * day_ns) = Ret d' -> od_ns d' = od_ns d.
Proof.
  intros d v H d' E. unfold add_ns in E. destruct (in_range _); [|discriminate E]. injection E as <-. cbn [od_ns].
  replace (od_day d * day_ns + od_ns d + v * day_ns) with (od_ns d + (od_day d + v) * day_ns) by ring.
  rewrite Z.mod_add by (unfold day_ns; lia). apply Z.mod_small. exact H.
Qed.
Lemma one_keeps : forall t0 d v u d', 0 <= t0 < day_ns -> od_ns d = t0 -> In u [UY; UM; UW; UD] ->
  (add_one t0 d v u = Ret d' \/ sub_one t0 d v u = Ret d') -> od_ns d' = t0.
Proof.
  intros t0 d v u d' T E I H. cbn [In] in I. destruct I as [<-|[<-|[<-|[<-|[]]]]]; cbn [add_one sub_one unit_ns] in H.
  - destruct (add_years_date _ _), (sub_years_date _ _); cbn [obind] in H; destruct H as [H|H]; try discriminate H; injection H as <-; reflexivity.
  - destruct (add_months_date _ _), (sub_months_date _ _); cbn [obind] in H; destruct H as [H|H]; try discriminate H; injection H as <-; reflexivity.
  - replace (v * (7 * day_ns)) with (v * 7 * day_ns) in H by ring. rewrite <- Z.mul_opp_l in H. subst t0.
    destruct H as [H|H]; apply add_ns_days in H; assumption.
  - rewrite <- Z.mul_opp_l in H. subst t0. destruct H as [H|H]; apply add_ns_days in H; assumption.
Qed.
Lemma each_keeps : forall p t0 d d', 0 <= t0 < day_ns -> od_ns d = t0 -> keeps_time p ->
  (each_capture parse_i64 (add_one t0) p d = Ret d' \/ each_capture parse_i64 (sub_one t0) p d = Ret d') -> od_ns d' = t0.
Proof.
  induction p as [|[ds u] p IH]; intros t0 d d' T E K H; cbn [each_capture] in H.
  - destruct H as [H|H]; injection H as <-; exact E.
  - inversion K as [|? ? Ku Kp]; subst. cbn [snd] in Ku. destruct (parse_i64 ds) as [v| |]; cbn [obind] in H; try (destruct H; discriminate).
    destruct H as [H|H].
    + destruct (add_one (od_ns d) d v u) as [d1| |] eqn:E1; cbn [obind] in H; try discriminate H.
      apply (IH _ d1); auto. eapply one_keeps; eauto.
    + destruct (sub_one (od_ns d) d v u) as [d1| |] eqn:E1; cbn [obind] in H; try discriminate H.
      apply (IH _ d1); auto. eapply one_keeps; eauto.
Qed.
Lemma each_no_months : forall p t0 t1 d, no_months p ->
  each_capture parse_i64 (add_one t0) p d = each_capture parse_i64 (add_one t1) p d /\
  each_capture parse_i64 (sub_one t0) p d = each_capture parse_i64 (sub_one t1) p d.
Proof.
  induction p as [|[ds u] p IH]; intros t0 t1 d K; [split; reflexivity|]. inversion K as [|? ? Ku Kp]; subst. cbn [snd] in Ku. cbn [each_capture].
  destruct (parse_i64 ds) as [v| |]; cbn [obind]; try (split; reflexivity).
  assert (A : add_one t0 d v u = add_one t1 d v u /\ sub_one t0 d v u = sub_one t1 d v u).
  { destruct u; cbn [In] in Ku; try (split; reflexivity); exfalso; apply Ku; auto. }
  destruct A as [-> ->]. destruct (add_one t1 d v u), (sub_one t1 d v u); cbn [obind]; split; try reflexivity; apply IH; exact Kp.
Qed.

(** if no year or month comes after an hour, minute or second *)
Theorem c99_left_to_right_partial : forall d p q, odt_whole d -> well_formed p -> well_formed q -> p <> [] -> q <> [] ->
  keeps_time p \/ no_months q ->
  add_period d (written (p ++ q)) = (let! d' := add_period d (written p) in add_period d' (written q)) /\
  sub_period d (written (p ++ q)) = (let! d' := sub_period d (written p) in sub_period d' (written q)).
Proof.
  intros d p q T Wp Wq Np Nq K.
  assert (W : well_formed (p ++ q)) by (apply Forall_app; split; assumption).
  assert (N : p ++ q <> []) by (destruct p; [congruence|discriminate]).
  rewrite !add_period_written, !sub_period_written, !each_app by assumption. split.
  - destruct (each_capture parse_i64 (add_one (od_ns d)) p d) as [d'| |] eqn:E; cbn [obind]; try reflexivity.
    rewrite add_period_written by assumption. destruct K as [K|K]; [|apply each_no_months; exact K].
    rewrite (each_keeps p (od_ns d) d d') by auto. reflexivity.
  - destruct (each_capture parse_i64 (sub_one (od_ns d)) p d) as [d'| |] eqn:E; cbn [obind]; try reflexivity.
    rewrite sub_period_written by assumption. destruct K as [K|K]; [|apply each_no_months; exact K].
    rewrite (each_keeps p (od_ns d) d d') by auto. reflexivity.
Qed.
Example c99_hypotheses_met : keeps_time [(str "1", UY); (str "1", UM)] /\ no_months [(str "1", UD); (str "1", Uh)] /\
  add_period (civil 2021 1 1 0 0) (str "1Y1M1D1h") = Ret (civil 2022 2 2 3600000000000 0) /\
  sub_period (civil 2021 1 1 0 0) (str "1Y1M1D1h") = Ret (civil 2019 11 29 82800000000000 0).
Proof.
  split; [|split; [|split; reflexivity]].
  - repeat (apply Forall_cons || apply Forall_nil); cbn; auto 6.
  - repeat (apply Forall_cons || apply Forall_nil); cbn; intros [H|[H|[]]]; discriminate H.
Qed.
(** REFUTED otherwise: a month after hours puts the clock back to where it started *)
Theorem c99_time_lost_refuted :
  add_period (civil 2021 1 1 0 0) (str "12h1M") = Ret (civil 2021 2 1 0 0) /\
  (let! d := add_period (civil 2021 1 1 0 0) (str "12h") in add_period d (str "1M")) = Ret (civil 2021 2 1 43200000000000 0) /\
  add_period (civil 2021 1 1 0 0) (str "36h1M") = add_period (civil 2021 1 2 0 0) (str "1M").
Proof. repeat split. Qed.

(** ** C100: subtracting years and months *)
Lemma sub_months_general : forall y m d ns off ds, civil_ok y m d ns -> numeral ds -> value_of ds < 2 ^ 31 ->
  (representable_year (year_after y m (- months_back m (value_of ds))) -> exists n',
     sub_period (civil y m d ns off) (ds ++ unit_name UM) = Ret (Odt n' ns off) /\ months_after y m d (- months_back m (value_of ds)) n') /\
  (~ representable_year (year_after y m (- months_back m (value_of ds))) -> sub_period (civil y m d ns off) (ds ++ unit_name UM) = Panic).
Proof.
  intros y m d ns off ds (Hy & V & Hns) N L. pose proof (numeral_digits ds N) as P.
  rewrite sub_period_one by (try assumption; lia). unfold sub_one, civil. rewrite as_i32_small by lia. cbn [od_day od_ns od_off].
  destruct (sub_months_ok y m d V (value_of ds) P Hy) as [A B]. split; intro R.
  - destruct (A R) as (n' & -> & M). exists n'. split; [reflexivity|exact M].
  - rewrite (B R). reflexivity.
Qed.
Theorem c100_sub_years : forall y m d ns off ds, civil_ok y m d ns -> numeral ds -> value_of ds < 2 ^ 31 ->
  (representable_year (year_after y m (- (12 * value_of ds))) -> exists n',
     sub_period (civil y m d ns off) (ds ++ unit_name UY) = Ret (Odt n' ns off) /\ months_after y m d (- (12 * value_of ds)) n') /\
  (~ representable_year (year_after y m (- (12 * value_of ds))) -> sub_period (civil y m d ns off) (ds ++ unit_name UY) = Panic).
Proof.
  intros y m d ns off ds (Hy & V & Hns) N L. pose proof (numeral_digits ds N) as P.
  rewrite sub_period_one by (try assumption; lia). unfold sub_one, civil. rewrite as_i32_small by lia. cbn [od_day od_ns od_off].
  destruct (sub_years_ok y m d V (value_of ds)) as [A B]. split; intro R.
  - destruct (A R) as (n' & -> & M). exists n'. split; [reflexivity|exact M].
  - rewrite (B R). reflexivity.
Qed.
(** months: right if they end no earlier than January of the year before, or in a January *)
Theorem c100_sub_months_partial : forall y m d ns off ds, civil_ok y m d ns -> numeral ds -> value_of ds < 2 ^ 31 ->
  value_of ds <= m + 11 \/ (m - value_of ds) mod 12 = 1 ->
  (representable_year (year_after y m (- value_of ds)) -> exists n',
     sub_period (civil y m d ns off) (ds ++ unit_name UM) = Ret (Odt n' ns off) /\ months_after y m d (- value_of ds) n') /\
  (~ representable_year (year_after y m (- value_of ds)) -> sub_period (civil y m d ns off) (ds ++ unit_name UM) = Panic).
Proof.
  intros y m d ns off ds C N L H. pose proof (sub_months_general y m d ns off ds C N L) as G.
  assert (E : months_back m (value_of ds) = value_of ds).
  { unfold months_back. destruct H as [H|H]; [rewrite (proj2 (Z.leb_le _ _) H); reflexivity|].
    assert (E : (value_of ds - (m - 1)) mod 12 = 0) by (Z.to_euclidean_division_equations; lia).
    rewrite E. cbn [Z.eqb]. rewrite orb_true_r. reflexivity. }
  rewrite E in G. exact G.
Qed.
(** REFUTED otherwise: the year is one too late, always *)
Theorem c100_sub_months_refuted : forall y m d ns off ds, civil_ok y m d ns -> numeral ds -> value_of ds < 2 ^ 31 ->
  m + 11 < value_of ds -> (m - value_of ds) mod 12 <> 1 ->
  (forall r, sub_period (civil y m d ns off) (ds ++ unit_name UM) = Ret r -> ~ months_after y m d (- value_of ds) (od_day r)) /\
  (representable_year (year_after y m (- value_of ds)) -> exists n',
     sub_period (civil y m d ns off) (ds ++ unit_name UM) = Ret (Odt n' ns off) /\ months_after y m d (- value_of ds + 12) n').
Proof.
  intros y m d ns off ds C N L H1 H2. pose proof (sub_months_general y m d ns off ds C N L) as [G1 G2].
  assert (E : months_back m (value_of ds) = value_of ds - 12).
  { unfold months_back. assert (A : (value_of ds <=? m + 11) = false) by (apply Z.leb_gt; lia).
    assert (B : ((value_of ds - (m - 1)) mod 12 =? 0) = false)
      by (apply Z.eqb_neq; intro X; apply H2; Z.to_euclidean_division_equations; lia).
    rewrite A, B. reflexivity. }
  rewrite E in *. replace (- (value_of ds - 12)) with (- value_of ds + 12) in * by lia. split.
  - intros r Hr M. assert (X : exists n', r = Odt n' ns off /\ months_after y m d (- value_of ds + 12) n').
    { destruct (Z_le_gt_dec (-9999) (year_after y m (- value_of ds + 12))) as [P1|P1];
        [destruct (Z_le_gt_dec (year_after y m (- value_of ds + 12)) 9999) as [P2|P2]|].
      2,3: rewrite G2 in Hr by (unfold representable_year; lia); discriminate Hr.
      destruct (G1 (conj P1 P2)) as (n' & E' & M'). rewrite E' in Hr. injection Hr as <-. exists n'. auto. }
    destruct X as (n' & -> & M'). cbn [od_day] in M. destruct C as (_ & V & _).
    pose proof (months_after_later y m d (- value_of ds) (- value_of ds + 12) n' n' V ltac:(lia) M M'). lia.
  - intro R. apply G1. destruct C as (Hy & [Hm _] & _). pose proof (numeral_digits ds N).
    unfold representable_year, year_after in *. Z.to_euclidean_division_equations; lia.
Qed.
Example c100_hypotheses_met : civil_ok 2021 1 31 0 /\ numeral (str "18") /\ 1 + 11 < value_of (str "18") /\ (1 - value_of (str "18")) mod 12 <> 1 /\
  sub_period (civil 2021 1 31 0 0) (str "18M") = Ret (civil 2020 7 31 0 0) /\ months_after 2021 1 31 (-18) (day_number 2019 7 31) /\
  sub_period (civil 2021 1 31 0 0) (str "12M") = Ret (civil 2020 1 31 0 0) /\ value_of (str "12") <= 1 + 11 /\
  sub_period (civil 2021 3 31 0 0) (str "13M") = Ret (civil 2020 2 29 0 0).
Proof.
  split; [|split; [|split; [reflexivity|split; [discriminate|split; [reflexivity|split; [|split; [reflexivity|split; [discriminate|reflexivity]]]]]]]].
  - split; [unfold representable_year; lia|]. split; [split; [lia|change (month_days 2021 1) with 31; lia]|unfold day_ns; lia].
  - split; [discriminate|]. repeat constructor; cbn; lia.
  - exists 2019, 7. split; [lia|]. split; [lia|reflexivity].
Qed.
(** adding up to twelve months and taking them away again comes back, for a day no later than the 28th *)
Theorem c100_undo_partial : forall y m d ns off ds d', civil_ok y m d ns -> d <= 28 -> numeral ds -> value_of ds <= 12 ->
  add_period (civil y m d ns off) (ds ++ unit_name UM) = Ret d' -> sub_period d' (ds ++ unit_name UM) = Ret (civil y m d ns off).
Proof.
  intros y m d ns off ds d' C D N L H. pose proof (numeral_digits ds N) as P.
  destruct (c97_add_months y m d ns off ds UM 1 C N ltac:(lia) eq_refl) as [A1 A2]. rewrite Z.mul_1_l in *.
  assert (R : representable_year (year_after y m (value_of ds))).
  { destruct (Z_le_gt_dec (-9999) (year_after y m (value_of ds))) as [P1|P1];
      [destruct (Z_le_gt_dec (year_after y m (value_of ds)) 9999) as [P2|P2]|].
    2,3: rewrite A2 in H by (unfold representable_year; lia); discriminate H. split; assumption. }
  destruct (A1 R) as (n' & E & y' & m' & Hm' & Q & ->). rewrite E in H. injection H as <-.
  destruct C as (Hy & [Hm Hd] & Hns). pose proof (month_days_range y' m') as G.
  replace (Z.min d (month_days y' m')) with d by lia.
  assert (Y : year_after y m (value_of ds) = y') by (unfold year_after; Z.to_euclidean_division_equations; lia). rewrite Y in R.
  assert (C' : civil_ok y' m' d ns) by (split; [exact R|split; [split; lia|exact Hns]]).
  destruct (c100_sub_months_partial y' m' d ns off ds C' N ltac:(lia) ltac:(lia)) as [B1 _].
  destruct B1 as (n & EB & y2 & m2 & Hm2 & Q2 & ->).
  { unfold representable_year, year_after in *. Z.to_euclidean_division_equations; lia. }
  fold (civil y' m' d ns off). rewrite EB. assert (y2 = y) by lia. assert (m2 = m) by lia. subst.
  unfold civil. do 2 f_equal. f_equal. lia.
Qed.

(** ** C101: the functions on dates do what those on date-times do *)
Definition fits (p : list (list ascii * punit)) : Prop := Forall (fun x => value_of (fst x) < 2 ^ 31) p.
Lemma add_ns_whole_days : forall n ns off v, 0 <= ns < day_ns ->
  add_ns (Odt n ns off) (v * day_ns) = let! n' := date_add n v in Ret (Odt n' ns off).
Proof.
  intros n ns off v H. unfold add_ns, date_add. cbn [od_day od_ns od_off].
  replace (n * day_ns + ns + v * day_ns) with (ns + (n + v) * day_ns) by ring.
  rewrite Z.mod_add, Z.div_add by (unfold day_ns; lia). rewrite Z.div_small, Z.mod_small, Z.add_0_l by exact H.
  destruct (in_range (n + v)); reflexivity.
Qed.
Lemma one_date : forall n ns off v u, 0 <= ns < day_ns -> 0 <= v < 2 ^ 31 -> date_unit u ->
  add_one ns (Odt n ns off) v u = (let! n' := add_one_date n v u in Ret (Odt n' ns off)) /\
  sub_one ns (Odt n ns off) v u = (let! n' := sub_one_date n v u in Ret (Odt n' ns off)).
Proof.
  intros n ns off v u H V I. cbn [date_unit In] in I.
  destruct I as [<-|[<-|[<-|[<-|[]]]]]; cbn [add_one sub_one add_one_date sub_one_date od_day od_off]; rewrite ?as_i32_small by exact V;
    try (split; reflexivity).
  - cbn [unit_ns]. replace (v * (7 * day_ns)) with (7 * v * day_ns) by ring. rewrite <- Z.mul_opp_l, !add_ns_whole_days by exact H. split; reflexivity.
  - cbn [unit_ns]. rewrite <- Z.mul_opp_l, !add_ns_whole_days by exact H. split; reflexivity.
Qed.
Theorem c101_dates_agree : forall n ns off p, 0 <= ns < day_ns -> well_formed p -> p <> [] -> fits p -> Forall (fun x => In (snd x) [UY; UM; UW; UD]) p ->
  add_period (Odt n ns off) (written p) = (let! n' := add_period_date n (written p) in Ret (Odt n' ns off)) /\
  sub_period (Odt n ns off) (written p) = (let! n' := sub_period_date n (written p) in Ret (Odt n' ns off)).
Proof.
  intros n ns off p H W N F D. rewrite add_period_written, sub_period_written by assumption.
  unfold add_period_date, sub_period_date. rewrite captures_written_date by assumption. cbn [od_ns].
  assert (G : forall n, each_capture parse_i64 (add_one ns) p (Odt n ns off) = (let! n' := each_capture parse_i32 add_one_date p n in Ret (Odt n' ns off)) /\
    each_capture parse_i64 (sub_one ns) p (Odt n ns off) = (let! n' := each_capture parse_i32 sub_one_date p n in Ret (Odt n' ns off))).
  { clear N n. induction p as [|[ds u] p IH]; intro n; [split; reflexivity|].
    inversion W as [|? ? Wd Wp]; subst. inversion F as [|? ? Fd Fp]; subst. inversion D as [|? ? Du Dp]; subst. cbn [fst snd] in *.
    pose proof (numeral_digits ds Wd) as P. cbn [each_capture]. rewrite parse_i64_ok, parse_i32_ok by lia. cbn [obind].
    destruct (one_date n ns off (value_of ds) u H ltac:(lia) Du) as [-> ->]. specialize (IH Wp Fp Dp).
    destruct (add_one_date n (value_of ds) u), (sub_one_date n (value_of ds) u); cbn [obind]; split; try reflexivity; apply IH. }
  destruct p as [|x p]; [congruence|]. apply G.
Qed.
Example c101_hypotheses_met : let p := [(str "1", UM); (str "2", UD)] in well_formed p /\ fits p /\ Forall (fun x => In (snd x) [UY; UM; UW; UD]) p /\
  add_period_date (day_number 2024 1 31) (written p) = Ret (day_number 2024 3 2) /\
  sub_period_date (day_number 2024 3 31) (written p) = Ret (day_number 2024 2 27).
Proof.
  cbv zeta. split; [|split; [|split; [|split; reflexivity]]].
  - repeat (apply Forall_cons || apply Forall_nil); cbn; (split; [discriminate|]); repeat constructor; cbn; lia.
  - repeat constructor; cbn; lia.
  - repeat (apply Forall_cons || apply Forall_nil); cbn; auto 6.
Qed.
(** REFUTED for other units: hours are ignored next to days, and panic alone; a number of 2^31 or more panics *)
Theorem c101_hours_refuted : forall n,
  add_period_date n (str "1D30h") = add_period_date n (str "1D") /\ add_period_date n (str "48h") = Panic /\
  add_period (civil 2024 1 1 0 0) (str "1D30h") = Ret (civil 2024 1 3 21600000000000 0) /\
  add_period_date n (str "1M30min") = add_period_date n (str "1M").
Proof. intro n. repeat split. Qed.
Print Assumptions c96_read_as_written.
Print Assumptions c96_no_number_panics.
Print Assumptions c96_no_period_panics.
Print Assumptions c96_malformed_refuted.
Print Assumptions c97_add_months.
Print Assumptions c97_months_after_unique.
Print Assumptions c97_monotone.
Print Assumptions c97_month_numbers.
Print Assumptions c97_wrap_refuted.
Print Assumptions c98_shift.
Print Assumptions c98_undo.
Print Assumptions c99_left_to_right_partial.
Print Assumptions c99_time_lost_refuted.
Print Assumptions c100_sub_years.
Print Assumptions c100_sub_months_partial.
Print Assumptions c100_sub_months_refuted.
Print Assumptions c100_undo_partial.
Print Assumptions c101_dates_agree.
Print Assumptions c101_hours_refuted.
