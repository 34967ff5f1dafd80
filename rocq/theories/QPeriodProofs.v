(** QPeriodProofs.v -- lemmas about period strings. *)
From Coq Require Import ZArith List Bool Ascii String Lia.
From Verif Require Import Base CivilSpec QDateModel QDateProofs QCalModel QCalSpec QCalProps QPeriodModel QPeriodSpec.
Import ListNotations.
Open Scope Z_scope.

(** ** Reading *)
Lemma is_digit_iff : forall c, is_digit c = true <-> (48 <= nat_of_ascii c <= 57)%nat.
Proof. intro c. unfold is_digit. rewrite andb_true_iff, !Nat.leb_le. tauto. Qed.

Definition no_digit (r : list ascii) : Prop := match r with [] => True | c :: _ => is_digit c = false end.
Definition digit_or_end (r : list ascii) : Prop := match r with [] => True | c :: _ => is_digit c = true end.

Lemma take_digits_app : forall ds r, Forall (fun c => (48 <= nat_of_ascii c <= 57)%nat) ds -> no_digit r ->
  take_digits (ds ++ r) = (ds, r).
Proof.
  induction ds as [|c ds IH]; intros r F N.
  - cbn [app]. destruct r as [|c r]; [reflexivity|]. cbn [take_digits]. cbn in N. rewrite N. reflexivity.
  - inversion F as [|? ? Hc Hds]; subst. cbn [app take_digits]. apply is_digit_iff in Hc. rewrite Hc, (IH r Hds N). reflexivity.
Qed.

Lemma unit_no_digit : forall u r, no_digit (unit_name u ++ r).
Proof. intros u r. destruct u; reflexivity. Qed.

Lemma take_unit_all : forall u r, take_unit all_units (unit_name u ++ r) = Some (u, r).
Proof. intros u r. destruct u; reflexivity. Qed.
Definition date_unit (u : punit) : Prop := In u [UY; UM; UW; UD].
Lemma take_unit_date : forall u r, date_unit u -> take_unit date_units (unit_name u ++ r) = Some (u, r).
Proof. intros u r H. destruct u; try reflexivity; cbn in H; intuition discriminate. Qed.

Lemma take_unit_none : forall us r, (us = all_units \/ us = date_units) -> digit_or_end r -> take_unit us r = None.
Proof.
  intros us r Hus H. destruct r as [|c r]; [destruct Hus as [->| ->]; reflexivity|]. cbn in H.
  destruct c as [[] [] [] [] [] [] [] []]; try discriminate H; destruct Hus as [->| ->]; reflexivity.
Qed.

Lemma take_units_none : forall us n u r, (us = all_units \/ us = date_units) -> digit_or_end r -> take_units n us u r = (u, r).
Proof. intros us n u r Hus H. destruct n; [reflexivity|]. cbn [take_units]. rewrite take_unit_none by assumption. reflexivity. Qed.

Lemma written_cons : forall ds u p, written ((ds, u) :: p) = ds ++ unit_name u ++ written p.
Proof. intros. unfold written. cbn [map List.concat fst snd]. rewrite <- app_assoc. reflexivity. Qed.
Lemma written_app : forall p q, written (p ++ q) = written p ++ written q.
Proof. intros. unfold written. rewrite map_app, concat_app. reflexivity. Qed.

Lemma written_digit : forall p, well_formed p -> digit_or_end (written p).
Proof.
  intros [|[ds u] p] W; [exact I|]. inversion W as [|? ? [N F] ?]; subst. cbn [fst] in *.
  rewrite written_cons. destruct ds as [|c ds]; [congruence|]. cbn. apply is_digit_iff. inversion F; assumption.
Qed.

Lemma captures_from_written : forall us, (us = all_units \/ us = date_units) ->
  forall p, well_formed p -> Forall (fun x => forall r, take_unit us (unit_name (snd x) ++ r) = Some (snd x, r)) p ->
  forall n, (List.length (written p) <= n)%nat -> captures_from n us (written p) = p.
Proof.
  intros us Hus. induction p as [|[ds u] p IH]; intros W U n Hn.
  - destruct n; reflexivity.
  - inversion W as [|? ? [Nds F] W']; subst. inversion U as [|? ? Hu U']; subst. cbn [fst snd] in *.
    rewrite written_cons in *.
    destruct ds as [|c ds]; [congruence|]. destruct n as [|n]; [cbn in Hn; lia|].
    pose proof (proj2 (is_digit_iff c) (Forall_inv F)) as Hc.
    pose proof (take_digits_app (c :: ds) (unit_name u ++ written p) F (unit_no_digit _ _)) as T.
    cbn [app] in *. cbn [captures_from]. rewrite Hc, T, Hu, take_units_none by (auto; apply written_digit; exact W').
    f_equal. apply IH; [exact W'|exact U'|]. cbn [List.length] in Hn. rewrite !app_length in Hn. lia.
Qed.

Lemma captures_written : forall p, well_formed p -> captures all_units (written p) = p.
Proof.
  intros p W. apply captures_from_written; auto. apply Forall_forall. intros x _ r. apply take_unit_all.
Qed.
Lemma captures_written_date : forall p, well_formed p -> Forall (fun x => date_unit (snd x)) p -> captures date_units (written p) = p.
Proof.
  intros p W D. apply captures_from_written; auto. eapply Forall_impl; [|exact D]. cbn. intros x Hx r. apply take_unit_date; exact Hx.
Qed.

(** *** What is not recognised *)
Lemma take_digits_split : forall s ds r, take_digits s = (ds, r) -> s = ds ++ r /\ Forall (fun c => is_digit c = true) ds /\ no_digit r.
Proof.
  induction s as [|c s IH]; intros ds r H; cbn [take_digits] in H.
  - injection H as <- <-. repeat split. constructor.
  - destruct (is_digit c) eqn:E.
    + destruct (take_digits s) as [ds' r']. injection H as <- <-. destruct (IH ds' r' eq_refl) as (-> & F & N). repeat split; [constructor; assumption|exact N].
    + injection H as <- <-. repeat split; [constructor|exact E].
Qed.
Lemma strip_app : forall p s r, strip p s = Some r -> s = p ++ r.
Proof.
  induction p as [|a p IH]; intros s r H; [injection H as <-; reflexivity|].
  destruct s as [|b s]; [discriminate H|]. cbn [strip] in H. destruct (Ascii.eqb_spec a b) as [->|]; [|discriminate H].
  cbn [app]. f_equal. apply IH. exact H.
Qed.
Lemma take_unit_some : forall us s u r, incl us all_units -> take_unit us s = Some (u, r) -> s = unit_name u ++ r.
Proof.
  induction us as [|[u0 name] us IH]; intros s u r I H; [discriminate H|]. cbn [take_unit] in H.
  destruct (strip name s) as [r0|] eqn:E.
  - injection H as <- <-. apply strip_app in E. rewrite E. f_equal. specialize (I _ (or_introl eq_refl)). cbn in I.
    repeat (destruct I as [I|I]; [injection I as <- <-; reflexivity|]). contradiction.
  - apply IH; [|exact H]. intros x Hx. apply I. right. exact Hx.
Qed.
Lemma has_period_nil : ~ has_period [].
Proof. intros (pre & c & u & post & _ & E). destruct pre; discriminate E. Qed.
Lemma has_period_skip : forall c s, is_digit c = false -> (has_period (c :: s) <-> has_period s).
Proof.
  intros c s N. split.
  - intros (pre & c' & u & post & D & E). destruct pre as [|x pre]; cbn in E; injection E as -> E.
    + apply is_digit_iff in D. congruence.
    + exists pre, c', u, post. auto.
  - intros (pre & c' & u & post & D & ->). exists (c :: pre), c', u, post. auto.
Qed.
(** digits not followed by a unit do not matter *)
Lemma has_period_digits : forall ds r, Forall (fun c => is_digit c = true) ds -> no_digit r -> take_unit all_units r = None -> (has_period (ds ++ r) <-> has_period r).
Proof.
  induction ds as [|c ds IH]; intros r F N T; [reflexivity|]. inversion F as [|? ? Hc F']; subst. rewrite <- (IH r F' N T). split.
  - intros (pre & c' & u & post & D & E). destruct pre as [|x pre]; cbn in E.
    + injection E as -> E. exfalso. destruct ds as [|c2 ds].
      * cbn in E. rewrite E, take_unit_all in T. discriminate T.
      * cbn in E. inversion F' as [|? ? Hc2 _]; subst. destruct u; cbn in E; injection E as -> _; discriminate Hc2.
    + injection E as -> E. exists pre, c', u, post. auto.
  - intros (pre & c' & u & post & D & E). exists (c :: pre), c', u, post. split; [exact D|]. cbn. rewrite E. reflexivity.
Qed.
Lemma captures_none_from : forall n s, (List.length s <= n)%nat -> (captures_from n all_units s = [] <-> ~ has_period s).
Proof.
  induction n as [|n IH]; intros s L.
  - destruct s; [|cbn in L; lia]. split; [intros _; apply has_period_nil|reflexivity].
  - destruct s as [|c s]; [split; [intros _; apply has_period_nil|reflexivity]|]. cbn [captures_from]. destruct (is_digit c) eqn:Hc.
    + destruct (take_digits (c :: s)) as [ds r] eqn:T. destruct (take_digits_split _ _ _ T) as (E & F & N). rewrite E.
      assert (Nds : ds <> []) by (intros ->; cbn [app] in E; subst r; cbn in N; congruence).
      destruct (take_unit all_units r) as [[u r']|] eqn:U.
      * destruct (take_units (List.length r') all_units u r') as [u' r'']. split; [discriminate|]. intro H. exfalso. apply H.
        apply take_unit_some in U; [|apply incl_refl]. destruct (exists_last Nds) as (ds' & c' & ->).
        apply Forall_app in F. destruct F as [_ F]. inversion F; subst. exists ds', c', u, r'. split; [apply is_digit_iff; assumption|].
        rewrite <- app_assoc. reflexivity.
      * rewrite IH; [rewrite has_period_digits by assumption; reflexivity|].
        destruct ds as [|x ds]; [congruence|]. cbn [app List.length] in E, L. injection E as -> E. rewrite E, app_length in L. lia.
    + rewrite IH by (cbn in L; lia). rewrite has_period_skip by exact Hc. reflexivity.
Qed.
Lemma captures_none : forall s, captures all_units s = [] <-> ~ has_period s.
Proof. intro s. apply captures_none_from. apply le_n. Qed.

Lemma number_from : forall ds a, fold_left (fun a c => 10 * a + digit_value c) ds a = a * 10 ^ Z.of_nat (List.length ds) + value_of ds.
Proof.
  induction ds as [|c ds IH]; intro a; cbn [fold_left value_of List.length]; [lia|].
  rewrite IH. rewrite Nat2Z.inj_succ, Z.pow_succ_r by lia. unfold digit_value. ring.
Qed.
Lemma number_value : forall ds, number ds = value_of ds.
Proof. intro ds. unfold number. rewrite number_from. ring. Qed.

Lemma value_nonneg : forall ds, Forall (fun c => (48 <= nat_of_ascii c <= 57)%nat) ds -> 0 <= value_of ds.
Proof.
  induction ds as [|c ds IH]; intro F; cbn [value_of]; [lia|]. inversion F; subst.
  assert (0 <= 10 ^ Z.of_nat (List.length ds)) by (apply Z.pow_nonneg; lia). specialize (IH H2).
  assert (0 <= (Z.of_nat (nat_of_ascii c) - 48) * 10 ^ Z.of_nat (List.length ds)) by (apply Z.mul_nonneg_nonneg; lia). lia.
Qed.

(** ** Months *)
Lemma last_day_ret : forall y m, 1 <= m <= 12 -> last_day_of_month y m =
  if (-9999 <=? y) && (y <=? 9999) then Ret (day_number y m (month_days y m)) else Panic.
Proof.
  intros y m Hm. unfold last_day_of_month, from_calendar_date.
  replace (is_leap_year y) with (leapb y) by (apply eq_true_iff_eq; rewrite c77_leap_year; apply leapb_leap).
  destruct ((-9999 <=? y) && (y <=? 9999)); month_cases m; unfold month_days; cbn; try reflexivity; destruct (leapb y); reflexivity.
Qed.

Lemma in_month_of_spec : forall d y m, 1 <= d -> 1 <= m <= 12 ->
  (representable_year y -> in_month_of d y m = Ret (day_number y m (Z.min d (month_days y m)))) /\
  (~ representable_year y -> in_month_of d y m = Panic).
Proof.
  intros d y m Hd Hm. unfold in_month_of, representable_year. rewrite last_day_ret by exact Hm. split; intro Hy.
  - assert (A : (-9999 <=? y) && (y <=? 9999) = true) by (apply andb_true_iff; rewrite !Z.leb_le; lia).
    rewrite A. cbn [obind]. pose proof (month_days_range y m).
    assert (V : valid_date y m (month_days y m)) by (split; lia).
    destruct (fields_of_date y m (month_days y m) V) as (_ & _ & ->).
    assert (E : (if month_days y m <? d then month_days y m else d) = Z.min d (month_days y m))
      by (destruct (Z.ltb_spec (month_days y m) d); lia).
    rewrite E. unfold from_calendar_date. rewrite A.
    assert (B : (1 <=? Z.min d (month_days y m)) = true) by (apply Z.leb_le; lia).
    assert (C : (Z.min d (month_days y m) <=? month_days y m) = true) by (apply Z.leb_le; lia).
    rewrite B, C. reflexivity.
  - assert (A : (-9999 <=? y) && (y <=? 9999) = false) by (apply andb_false_iff; rewrite !Z.leb_gt; lia).
    rewrite A. reflexivity.
Qed.

Lemma months_after_unique : forall y m d k a b, months_after y m d k a -> months_after y m d k b -> a = b.
Proof.
  intros y m d k a b (y1 & m1 & H1 & E1 & ->) (y2 & m2 & H2 & E2 & ->).
  assert (y1 = y2) by lia. assert (m1 = m2) by lia. subst. reflexivity.
Qed.

Lemma months_after_intro : forall y m d k y' m', 1 <= m' <= 12 -> 12 * y' + m' = 12 * y + m + k ->
  year_after y m k = y' /\ months_after y m d k (day_number y' m' (Z.min d (month_days y' m'))).
Proof.
  intros y m d k y' m' H E. split.
  - unfold year_after. Z.to_euclidean_division_equations; lia.
  - exists y', m'. auto.
Qed.

Section Months.
Variables y m d : Z.
Hypothesis V : valid_date y m d.
Let n := day_number y m d.

Lemma add_years_ok : forall v,
  (representable_year (year_after y m (12 * v)) -> exists n', add_years_date n v = Ret n' /\ months_after y m d (12 * v) n') /\
  (~ representable_year (year_after y m (12 * v)) -> add_years_date n v = Panic).
Proof.
  intro v. unfold add_years_date, n. destruct (fields_of_date y m d V) as (-> & -> & ->). destruct V as [Hm Hd].
  destruct (months_after_intro y m d (12 * v) (y + v) m Hm ltac:(lia)) as [-> M].
  destruct (in_month_of_spec d (y + v) m ltac:(lia) Hm) as [A B]. split; [|exact B].
  intro R. eexists. split; [exact (A R)|exact M].
Qed.

Lemma add_months_ok : forall v, 0 <= v ->
  (representable_year (year_after y m v) -> exists n', add_months_date n v = Ret n' /\ months_after y m d v n') /\
  (~ representable_year (year_after y m v) -> add_months_date n v = Panic).
Proof.
  intros v Hv. unfold add_months_date, n. destruct (fields_of_date y m d V) as (-> & -> & ->). destruct V as [Hm Hd].
  unfold from_month_to_i32. set (k := m - 1 + v).
  assert (R0 : 0 <= Z.rem k 12 <= 11) by (subst k; Z.to_euclidean_division_equations; lia).
  unfold from_i32_to_month. assert (A : (0 <=? Z.rem k 12) && (Z.rem k 12 <=? 11) = true) by (apply andb_true_iff; rewrite !Z.leb_le; lia).
  rewrite A. cbn [obind].
  destruct (months_after_intro y m d v (y + Z.quot k 12) (Z.rem k 12 + 1)) as [-> M]; [lia| |].
  { pose proof (Z.quot_rem' k 12). subst k. lia. }
  destruct (in_month_of_spec d (y + Z.quot k 12) (Z.rem k 12 + 1) ltac:(lia) ltac:(lia)) as [B C]. split; [|exact C].
  intro R. eexists. split; [exact (B R)|exact M].
Qed.

Lemma sub_years_ok : forall v,
  (representable_year (year_after y m (- (12 * v))) -> exists n', sub_years_date n v = Ret n' /\ months_after y m d (- (12 * v)) n') /\
  (~ representable_year (year_after y m (- (12 * v))) -> sub_years_date n v = Panic).
Proof.
  intro v. unfold sub_years_date, n. destruct (fields_of_date y m d V) as (-> & -> & ->). destruct V as [Hm Hd].
  destruct (months_after_intro y m d (- (12 * v)) (y - v) m Hm ltac:(lia)) as [-> M].
  destruct (in_month_of_spec d (y - v) m ltac:(lia) Hm) as [A B]. split; [|exact B].
  intro R. eexists. split; [exact (A R)|exact M].
Qed.

(** the months the code goes back for "vM" *)
Definition months_back (m v : Z) : Z := if (v <=? m + 11) || ((v - (m - 1)) mod 12 =? 0) then v else v - 12.

Lemma sub_months_ok : forall v, 0 <= v -> representable_year y ->
  (representable_year (year_after y m (- months_back m v)) ->
     exists n', sub_months_date n v = Ret n' /\ months_after y m d (- months_back m v) n') /\
  (~ representable_year (year_after y m (- months_back m v)) -> sub_months_date n v = Panic).
Proof.
  intros v Hv Hy. unfold sub_months_date, n. destruct (fields_of_date y m d V) as (-> & -> & ->). destruct V as [Hm Hd].
  unfold from_month_to_i32. set (k := m - 1 - v).
  assert (Q : 12 * (y - 1 + Z.quot (k + 12) 12) + (k mod 12 + 1) = 12 * y + m + - months_back m v).
  { unfold months_back. destruct (Z.leb_spec v (m + 11)); cbn [orb].
    - subst k. Z.to_euclidean_division_equations; lia.
    - destruct (Z.eqb_spec ((v - (m - 1)) mod 12) 0); subst k; Z.to_euclidean_division_equations; lia. }
  destruct (Z_le_gt_dec v 120000000) as [Hs|Hb].
  - assert (R : Z.rem (k + 120000000) 12 = k mod 12) by (subst k; Z.to_euclidean_division_equations; lia). rewrite R.
    assert (R0 : 0 <= k mod 12 <= 11) by (Z.to_euclidean_division_equations; lia).
    unfold from_i32_to_month. assert (A : (0 <=? k mod 12) && (k mod 12 <=? 11) = true) by (apply andb_true_iff; rewrite !Z.leb_le; lia).
    rewrite A. cbn [obind].
    destruct (months_after_intro y m d (- months_back m v) (y - 1 + Z.quot (k + 12) 12) (k mod 12 + 1) ltac:(lia) Q) as [-> M].
    destruct (in_month_of_spec d (y - 1 + Z.quot (k + 12) 12) (k mod 12 + 1) ltac:(lia) ltac:(lia)) as [B C]. split; [|exact C].
    intro R'. eexists. split; [exact (B R')|exact M].
  - assert (N : ~ representable_year (y - 1 + Z.quot (k + 12) 12)).
    { unfold representable_year in *. subst k. Z.to_euclidean_division_equations; lia. }
    assert (Y : year_after y m (- months_back m v) = y - 1 + Z.quot (k + 12) 12).
    { apply (months_after_intro y m d (- months_back m v) _ (k mod 12 + 1)); [|exact Q]. Z.to_euclidean_division_equations; lia. }
    rewrite Y. split; [intro; contradiction|]. intros _.
    unfold from_i32_to_month. destruct ((0 <=? _) && _) eqn:E; cbn [obind]; [|reflexivity].
    apply in_month_of_spec; [lia| |exact N]. apply andb_true_iff in E. rewrite !Z.leb_le in E. lia.
Qed.
End Months.

(** order *)
Lemma months_after_mono : forall y1 m1 d1 y2 m2 d2 k a b, valid_date y1 m1 d1 -> valid_date y2 m2 d2 ->
  day_number y1 m1 d1 <= day_number y2 m2 d2 -> months_after y1 m1 d1 k a -> months_after y2 m2 d2 k b -> a <= b.
Proof.
  intros y1 m1 d1 y2 m2 d2 k a b V1 V2 L (y1' & m1' & H1 & E1 & ->) (y2' & m2' & H2 & E2 & ->).
  pose proof (month_days_range y1' m1'). pose proof (month_days_range y2' m2').
  assert (W1 : valid_date y1' m1' (Z.min d1 (month_days y1' m1'))) by (destruct V1; split; lia).
  assert (W2 : valid_date y2' m2' (Z.min d2 (month_days y2' m2'))) by (destruct V2; split; lia).
  destruct (Z_le_gt_dec (day_number y1' m1' (Z.min d1 (month_days y1' m1'))) (day_number y2' m2' (Z.min d2 (month_days y2' m2')))) as [G|G]; [exact G|].
  exfalso. apply Z.gt_lt in G. apply day_number_mono in G; [|assumption|assumption].
  assert (N : ~ day_number y2 m2 d2 < day_number y1 m1 d1) by lia. apply N. apply day_number_mono; [assumption|assumption|].
  unfold date_lt in *. destruct V1, V2.
  assert (C : 12 * y2 + m2 < 12 * y1 + m1 \/ (y1' = y2' /\ m1' = m2' /\ 12 * y2 + m2 = 12 * y1 + m1)) by lia.
  destruct C as [C|(-> & -> & C)]; [|]; lia.
Qed.
Lemma months_after_later : forall y m d j k a b, valid_date y m d -> j < k -> months_after y m d j a -> months_after y m d k b -> a < b.
Proof.
  intros y m d j k a b V L (y1' & m1' & H1 & E1 & ->) (y2' & m2' & H2 & E2 & ->).
  pose proof (month_days_range y1' m1'). pose proof (month_days_range y2' m2').
  assert (W1 : valid_date y1' m1' (Z.min d (month_days y1' m1'))) by (destruct V; split; lia).
  assert (W2 : valid_date y2' m2' (Z.min d (month_days y2' m2'))) by (destruct V; split; lia).
  apply day_number_mono; [assumption|assumption|]. unfold date_lt. lia.
Qed.

(** ** Single captures *)
Lemma written_one : forall ds u, written [(ds, u)] = ds ++ unit_name u.
Proof. intros. rewrite written_cons. cbn. rewrite app_nil_r. reflexivity. Qed.

Lemma add_period_written : forall d p, well_formed p -> p <> [] ->
  add_period d (written p) = each_capture parse_i64 (add_one (od_ns d)) p d.
Proof. intros d p W N. unfold add_period. rewrite captures_written by exact W. destruct p; [congruence|reflexivity]. Qed.
Lemma sub_period_written : forall d p, well_formed p -> p <> [] ->
  sub_period d (written p) = each_capture parse_i64 (sub_one (od_ns d)) p d.
Proof. intros d p W N. unfold sub_period. rewrite captures_written by exact W. destruct p; [congruence|reflexivity]. Qed.

Lemma one_wf : forall ds u, numeral ds -> well_formed [(ds, u)].
Proof. intros. constructor; [assumption|constructor]. Qed.

Lemma each_one : forall T pr (f : T -> Z -> punit -> outcome T) ds u d v, pr ds = Ret v -> each_capture pr f [(ds, u)] d = f d v u.
Proof. intros T pr f ds u d v E. cbn [each_capture]. rewrite E. cbn [obind]. destruct (f d v u); reflexivity. Qed.

Lemma parse_i64_ok : forall ds, value_of ds < 2 ^ 63 -> parse_i64 ds = Ret (value_of ds).
Proof.
  intros ds H. unfold parse_i64. rewrite number_value. replace (_ <=? _) with true; [reflexivity|].
  symmetry. apply Z.leb_le. lia.
Qed.
Lemma parse_i32_ok : forall ds, value_of ds < 2 ^ 31 -> parse_i32 ds = Ret (value_of ds).
Proof.
  intros ds H. unfold parse_i32. rewrite number_value. replace (_ <=? _) with true; [reflexivity|].
  symmetry. apply Z.leb_le. lia.
Qed.
Lemma as_i32_small : forall v, 0 <= v < 2 ^ 31 -> as_i32 v = v.
Proof. intros v H. unfold as_i32. rewrite Z.mod_small; lia. Qed.

Lemma add_period_one : forall d ds u, numeral ds -> value_of ds < 2 ^ 63 ->
  add_period d (ds ++ unit_name u) = add_one (od_ns d) d (value_of ds) u.
Proof.
  intros d ds u N H. rewrite <- written_one, add_period_written by (try apply one_wf; congruence || assumption).
  apply each_one. apply parse_i64_ok. exact H.
Qed.
Lemma sub_period_one : forall d ds u, numeral ds -> value_of ds < 2 ^ 63 ->
  sub_period d (ds ++ unit_name u) = sub_one (od_ns d) d (value_of ds) u.
Proof.
  intros d ds u N H. rewrite <- written_one, sub_period_written by (try apply one_wf; congruence || assumption).
  apply each_one. apply parse_i64_ok. exact H.
Qed.

(** ** Durations *)
Lemma add_ns_spec : forall d ns, 0 <= od_ns d < day_ns ->
  (in_range ((od_day d * day_ns + od_ns d + ns) / day_ns) = true ->
    exists d', add_ns d ns = Ret d' /\ instant d' = instant d + ns /\ od_off d' = od_off d /\ 0 <= od_ns d' < day_ns /\ in_range (od_day d') = true) /\
  (in_range ((od_day d * day_ns + od_ns d + ns) / day_ns) = false -> add_ns d ns = Panic).
Proof.
  intros d ns H. unfold add_ns. set (t := od_day d * day_ns + od_ns d + ns). split; intro E; rewrite E; [|reflexivity].
  eexists. split; [reflexivity|]. cbn [od_day od_ns od_off]. unfold instant. cbn [od_day od_ns od_off].
  pose proof (Z.div_mod t day_ns ltac:(unfold day_ns; lia)). pose proof (Z.mod_pos_bound t day_ns ltac:(unfold day_ns; lia)).
  repeat split; try lia. exact E.
Qed.
