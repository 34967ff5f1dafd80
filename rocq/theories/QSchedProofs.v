(** QSchedProofs.v -- lemmas about schedules. *)
From Coq Require Import ZArith List Bool Ascii String Lia.
From Verif Require Import Base CivilSpec QDateModel QDateProofs QCalModel QCalSpec QCalProps QPeriodModel QPeriodSpec QPeriodProofs QPeriodProps QSchedModel QSchedSpec.
Import ListNotations.
Open Scope Z_scope.

(** ** Numbers as strings *)
Lemma digit_char_code : forall d, 0 <= d <= 9 -> nat_of_ascii (digit_char d) = Z.to_nat (48 + d).
Proof. intros d H. unfold digit_char. apply nat_ascii_embedding. lia. Qed.
Lemma digit_char_digit : forall d, 0 <= d <= 9 -> (48 <= nat_of_ascii (digit_char d) <= 57)%nat.
Proof. intros d H. rewrite digit_char_code by exact H. lia. Qed.

Lemma digits_of_ok : forall fuel n acc, 0 <= n < 10 ^ Z.of_nat fuel -> (fuel <> O) ->
  Forall (fun c => (48 <= nat_of_ascii c <= 57)%nat) acc ->
  numeral (digits_of fuel n acc) /\ value_of (digits_of fuel n acc) = n * 10 ^ Z.of_nat (List.length acc) + value_of acc.
Proof.
  induction fuel as [|k IH]; intros n acc H F A; [congruence|]. cbn [digits_of]. destruct (Z.ltb_spec n 10) as [L|L].
  - split.
    + split; [discriminate|]. constructor; [apply digit_char_digit; lia|exact A].
    + cbn [value_of]. rewrite digit_char_code by lia. rewrite Z2Nat.id by lia. f_equal. f_equal. lia.
  - assert (K : k <> O) by (intros ->; change (10 ^ Z.of_nat 1) with 10 in H; lia).
    rewrite Nat2Z.inj_succ, Z.pow_succ_r in H by lia.
    assert (M : 0 <= n mod 10 <= 9) by (Z.to_euclidean_division_equations; lia).
    assert (D : 0 <= n / 10 < 10 ^ Z.of_nat k) by (split; [apply Z.div_pos; lia|apply Z.div_lt_upper_bound; lia]).
    destruct (IH (n / 10) (digit_char (n mod 10) :: acc) D K) as [N V].
    + constructor; [apply digit_char_digit; exact M|exact A].
    + split; [exact N|]. rewrite V. cbn [List.length value_of]. rewrite digit_char_code, Z2Nat.id, Nat2Z.inj_succ, Z.pow_succ_r by lia.
      pose proof (Z.div_mod n 10 ltac:(lia)) as E. set (p := 10 ^ Z.of_nat (List.length acc)) in *.
      replace (48 + n mod 10 - 48) with (n mod 10) by lia.
      assert (E2 : n * p = (10 * (n / 10) + n mod 10) * p) by (rewrite <- E; reflexivity). lia.
Qed.
Lemma z_to_string_ok : forall n, 0 <= n -> numeral (z_to_string n) /\ value_of (z_to_string n) = n.
Proof.
  intros n H. unfold z_to_string. destruct (digits_of_ok (Z.to_nat (Z.log2 n) + 1) n []) as [N V].
  - split; [exact H|]. rewrite Nat2Z.inj_add, Z2Nat.id by apply Z.log2_nonneg. change (Z.of_nat 1) with 1.
    destruct (Z.eq_dec n 0) as [->|Z0]; [reflexivity|]. pose proof (Z.log2_spec n ltac:(lia)) as [_ L].
    apply Z.lt_le_trans with (1 := L). rewrite <- Z.add_1_r. apply Z.pow_le_mono_l. lia.
  - lia.
  - constructor.
  - split; [exact N|]. rewrite V. cbn. lia.
Qed.

(** ** Frequencies *)
Definition freq_head (f : frequency) : Z :=
  match f with
  | Daily | Weekly | Monthly | Annually => 1 | BiWeekly | SemiMonthly | SemiQuarterly => 2 | Quarterly => 3 | TriAnnually => 4
  | SemiAnnually => 6 | NoFrequency => 0
  end.
Definition freq_unit (f : frequency) : punit :=
  match f with Daily => UD | Weekly | BiWeekly | SemiMonthly => UW | Annually => UY | _ => UM end.

Lemma to_string_ok : forall m f i, f <> NoFrequency -> 0 <= i -> freq_head f * i <= 2147483647 ->
  to_string_with_multiple m f i = Ret (z_to_string (freq_head f * i) ++ unit_name (freq_unit f)).
Proof.
  intros m f i N I H.
  destruct f; try congruence; unfold to_string_with_multiple; cbn [as_str removelast last freq_head freq_unit unit_name] in *; cbv zeta;
    match goal with |- context [forallb is_digit ?x] =>
      change (forallb is_digit x) with true; let v := eval vm_compute in (parse_i32 x) in change (parse_i32 x) with v end;
    cbv iota beta; cbn [obind]; cbv zeta; rewrite (proj2 (Z.leb_le _ _) H); reflexivity.
Qed.
Lemma to_string_none : forall m i, to_string_with_multiple m NoFrequency i = Panic.
Proof. reflexivity. Qed.

Lemma steps_unique : forall f d i r r', steps_after f d i r -> steps_after f d i r' -> r = r'.
Proof.
  intros f d i [n s o] [n' s' o'] (A1 & A2 & A3) (B1 & B2 & B3). cbn [od_ns od_off od_day] in *. subst. f_equal.
  destruct (freq_step f) as [[k|k]|]; [| |contradiction].
  - destruct A3 as (y & m & dd & V & E & M), B3 as (y' & m' & dd' & V' & E' & M'). rewrite E in E'.
    destruct (day_number_unique _ _ _ _ _ _ V V' E') as (<- & <- & <-). exact (months_after_unique _ _ _ _ _ _ M M').
  - lia.
Qed.
Lemma steps_exist : forall f d i, f <> NoFrequency -> exists r, steps_after f d i r.
Proof.
  intros f d i N. unfold steps_after. destruct (freq_step f) as [[k|k]|] eqn:E.
  - destruct (date_fields (od_day d)) as [V D]. set (y := date_year (od_day d)) in *. set (m := date_month (od_day d)) in *. set (dd := date_day (od_day d)) in *.
    set (j := 12 * y + (m - 1) + k * i).
    exists (Odt (day_number (j / 12) (j mod 12 + 1) (Z.min dd (month_days (j / 12) (j mod 12 + 1)))) (od_ns d) (od_off d)). cbn [od_ns od_off od_day].
    split; [reflexivity|]. split; [reflexivity|]. exists y, m, dd. split; [exact V|]. split; [symmetry; exact D|].
    exists (j / 12), (j mod 12 + 1). split; [Z.to_euclidean_division_equations; lia|]. split; [|reflexivity].
    pose proof (Z.div_mod j 12 ltac:(lia)). subst j. lia.
  - exists (Odt (od_day d + k * i) (od_ns d) (od_off d)). auto.
  - destruct f; discriminate || congruence.
Qed.
Lemma step_positive : forall f, match freq_step f with Some (Months k) => 1 <= k <= 12 | Some (Days k) => 1 <= k <= 14 | None => True end.
Proof. destruct f; cbn; lia. Qed.
Lemma steps_later : forall f d i j r r', i < j -> steps_after f d i r -> steps_after f d j r' -> od_day r < od_day r' /\ instant r < instant r'.
Proof.
  intros f d i j r r' L (A1 & A2 & A3) (B1 & B2 & B3). pose proof (step_positive f) as P.
  assert (G : od_day r < od_day r').
  { destruct (freq_step f) as [[k|k]|]; [| |contradiction].
    - destruct A3 as (y & m & dd & V & E & M), B3 as (y' & m' & dd' & V' & E' & M'). rewrite E in E'.
      destruct (day_number_unique _ _ _ _ _ _ V V' E') as (<- & <- & <-). apply (months_after_later y m dd (k * i) (k * j)); auto. nia.
    - nia. }
  split; [exact G|]. unfold instant. rewrite A1, A2, B1, B2. unfold day_ns. nia.
Qed.
Lemma steps_zero : forall f d, f <> NoFrequency -> steps_after f d 0 d.
Proof.
  intros f d N. split; [reflexivity|]. split; [reflexivity|]. destruct (freq_step f) as [[k|k]|] eqn:E.
  - destruct (date_fields (od_day d)) as [V D]. exists (date_year (od_day d)), (date_month (od_day d)), (date_day (od_day d)).
    split; [exact V|]. split; [symmetry; exact D|]. exists (date_year (od_day d)), (date_month (od_day d)). destruct V as [Vm Vd].
    split; [exact Vm|]. split; [lia|]. rewrite Z.min_l by lia. symmetry. exact D.
  - lia.
  - destruct f; discriminate || congruence.
Qed.

Lemma in_range_day : forall y m d, valid_date y m d -> in_range (day_number y m d) = true <-> representable_year y.
Proof. intros y m d V. rewrite in_range_year. destruct (fields_of_date y m d V) as (-> & _). reflexivity. Qed.

Lemma months_after_range : forall y m d k n, valid_date y m d -> months_after y m d k n ->
  in_range n = true <-> representable_year (year_after y m k).
Proof.
  intros y m d k n [Hm Hd] (y' & m' & H & E & ->). pose proof (month_days_range y' m').
  rewrite in_range_day by (split; lia). assert (Y : year_after y m k = y') by (unfold year_after; Z.to_euclidean_division_equations; lia).
  rewrite Y. reflexivity.
Qed.

(** adding the i-th multiple *)
Lemma freq_add : forall m f d i, odt_ok d -> f <> NoFrequency -> 1 <= i -> freq_head f * i <= 2147483647 -> forall r, steps_after f d i r ->
  exists s, to_string_with_multiple m f i = Ret s /\ add_period d s = if in_range (od_day r) then Ret r else Panic.
Proof.
  intros m f d i O N I H r S. eexists. split; [apply to_string_ok; [exact N|lia|exact H]|].
  assert (P : 0 <= freq_head f * i) by (assert (0 <= freq_head f) by (destruct f; cbn; lia); nia).
  destruct (z_to_string_ok (freq_head f * i) P) as [NU VA]. destruct O as (OR & ON & OO).
  destruct S as (S1 & S2 & S3).
  destruct (match freq_step f with Some (Months _) => true | _ => false end) eqn:K.
  - destruct (freq_step f) as [[k|k]|] eqn:FS; try discriminate K.
    destruct S3 as (y & mo & dd & V & E & M).
    assert (C : civil_ok y mo dd (od_ns d)).
    { split; [|split; [exact V|exact ON]]. rewrite E in OR. apply in_range_day in OR; [exact OR|exact V]. }
    assert (D : d = civil y mo dd (od_ns d) (od_off d)) by (destruct d; cbn in *; unfold civil; subst; reflexivity).
    assert (U : exists c, months_of (freq_unit f) = Some c /\ c * (freq_head f * i) = k * i).
    { destruct f; cbn in FS; try discriminate FS; injection FS as <-; cbn [freq_unit freq_head months_of]; eexists; (split; [reflexivity|]); lia. }
    destruct U as (c & U & CK).
    destruct (c97_add_months y mo dd (od_ns d) (od_off d) (z_to_string (freq_head f * i)) (freq_unit f) c C NU) as [A B]; [lia|exact U|].
    rewrite VA, CK in *. rewrite <- D in *. destruct (in_range (od_day r)) eqn:IR.
    + destruct A as (n' & A1 & A2); [apply (months_after_range y mo dd _ _ V M); exact IR|]. rewrite A1. f_equal.
      rewrite (months_after_unique _ _ _ _ _ _ A2 M). destruct r; cbn in *; subst; reflexivity.
    + apply B. intro R. apply (months_after_range y mo dd _ _ V M) in R. congruence.
  - destruct (freq_step f) as [[k|k]|] eqn:FS; try discriminate K; [|contradiction].
    rewrite add_period_one, VA by (try exact NU; lia).
    assert (U : freq_head f * i * unit_ns (freq_unit f) = k * i * day_ns).
    { destruct f; cbn in FS; try discriminate FS; injection FS as <-; cbn [freq_unit freq_head unit_ns]; lia. }
    assert (Q : add_one (od_ns d) d (freq_head f * i) (freq_unit f) = add_ns d (freq_head f * i * unit_ns (freq_unit f))).
    { destruct f; cbn in FS; try discriminate FS; reflexivity. }
    rewrite Q, U. destruct d as [n ns off]. cbn [od_day od_ns od_off] in *. rewrite add_ns_whole_days by exact ON. unfold date_add. rewrite S3.
    destruct (in_range (n + k * i)); [|reflexivity]. cbn [obind]. f_equal. destruct r; cbn in *; subst; reflexivity.
Qed.

(** ** The forward loop *)
Lemma map_seq_snoc : forall (g : nat -> odt) n, (map g (seq 0 (S n)) = map g (seq 0 n) ++ [g n])%list.
Proof. intros g n. rewrite seq_S, map_app. reflexivity. Qed.

Section Forward.
Variables (m : build) (eff mat : odt) (f : frequency).
Hypothesis (Heff : odt_ok eff) (Hmat : odt_ok mat) (Hf : f <> NoFrequency).
Variable raw : nat -> odt.
Hypothesis Hraw : forall i, steps_after f eff (Z.of_nat i) (raw i).

Lemma raw_0 : raw 0%nat = eff.
Proof. exact (steps_unique f eff 0 _ _ (Hraw 0) (steps_zero f eff Hf)). Qed.
Lemma raw_day : forall i, od_day eff + Z.of_nat i <= od_day (raw i).
Proof.
  induction i as [|i IH]; [rewrite raw_0; lia|].
  destruct (steps_later f eff (Z.of_nat i) (Z.of_nat (S i)) _ _ ltac:(lia) (Hraw i) (Hraw (S i))) as [L _]. lia.
Qed.

Definition fwd_inv (st : list odt * Z * odt) : Prop :=
  let '(v, count, cur) := st in
  exists n, count = Z.of_nat n + 1 /\ v = map raw (seq 0 (S n)) /\ cur = raw n /\
    in_range (od_day cur) = true /\ forall j, (j < n)%nat -> instant (raw j) < instant mat.
Definition fwd_result (r : outcome (list odt)) : Prop :=
  (exists n, r = Ret (map raw (seq 0 (S n))) /\ (forall j, (j < n)%nat -> instant (raw j) < instant mat) /\ instant mat <= instant (raw n)) \/
  (r = Panic /\ exists n, in_range (od_day (raw n)) = false /\ forall j, (j < n)%nat -> instant (raw j) < instant mat).

Lemma forward_loop : fwd_result (raw_dates m true eff mat f).
Proof.
  unfold raw_dates. apply (while_loop_ends _ fwd_inv (fun st => date_max - od_day (snd st))).
  - intros [[v count] cur] (n & Hc & Hv & Hcur & HR & HL). unfold forward_turn. cbn [snd] in *.
    destruct (Z.ltb_spec (instant cur) (instant mat)) as [L|L].
    + pose proof (raw_day n) as RD. rewrite Hcur in HR.
      assert (CB : count <= 7304484).
      { unfold in_range, date_min, date_max in HR. rewrite andb_true_iff, !Z.leb_le in HR.
        destruct Heff as (ER & _ & _). unfold in_range, date_min, date_max in ER. rewrite andb_true_iff, !Z.leb_le in ER. lia. }
      pose proof (Hraw (S n)) as HS. replace (Z.of_nat (S n)) with count in HS by lia.
      destruct (freq_add m f eff count Heff Hf ltac:(lia)) with (2 := HS) as (s & -> & A).
      { assert (0 <= freq_head f <= 6) by (destruct f; cbn; lia). nia. }
      cbn [turn_bind]. rewrite A. destruct (in_range (od_day (raw (S n)))) eqn:IR; cbn [turn_bind].
      * split.
        { exists (S n). split; [lia|]. split; [rewrite Hv; symmetry; apply map_seq_snoc|]. split; [reflexivity|]. split; [exact IR|].
          intros j Hj. destruct (Nat.eq_dec j n) as [->|]; [rewrite <- Hcur; exact L|apply HL; lia]. }
        { cbn [snd]. assert (LT : od_day (raw n) < od_day (raw (S n)))
            by (apply (steps_later f eff (Z.of_nat n) (Z.of_nat (S n)) _ _ ltac:(lia) (Hraw n) (Hraw (S n)))).
          unfold in_range in IR. rewrite andb_true_iff, !Z.leb_le in IR. rewrite Hcur. lia. }
      * right. split; [reflexivity|]. exists (S n). split; [exact IR|].
        intros j Hj. destruct (Nat.eq_dec j n) as [->|]; [rewrite <- Hcur; exact L|apply HL; lia].
    + left. exists n. split; [rewrite Hv; reflexivity|]. split; [exact HL|]. rewrite <- Hcur. exact L.
  - exists 0%nat. split; [reflexivity|]. cbn [seq map]. rewrite raw_0. split; [reflexivity|]. split; [reflexivity|].
    split; [apply Heff|]. intros; lia.
  - cbn [snd]. destruct Heff as (ER & _ & _). unfold in_range in ER. rewrite andb_true_iff, !Z.leb_le in ER. unfold date_min, date_max in *. lia.
Qed.
End Forward.

(** ** The second half *)
Local Strategy 1000 [adjust].
Lemma adjust_all_ok : forall a cv v w, adjust_all a cv v = Ret (ROk w) -> Forall2 (fun d r => adjust a d cv = Ret (ROk r)) v w.
Proof.
  induction v as [|d v IH]; intros w H; cbn [adjust_all] in H; [injection H as <-; constructor|].
  destruct (adjust a d cv) as [[r|]| |] eqn:E; cbn [obind] in H; try discriminate H.
  destruct (adjust_all a cv v) as [[rs|]| |] eqn:E2; cbn [obind] in H; try discriminate H.
  injection H as <-. constructor; [exact E|]. apply IH. reflexivity.
Qed.

Lemma make_coupon_ok : forall eff mat a cv fg pg i n s e c, make_coupon eff mat a cv fg pg i n s e = Ret (ROk c) ->
  let start := if (i =? 0)%nat then eff else s in
  let is_last := negb (i =? 0)%nat && (i =? n - 1)%nat in
  calc_start_date c = start /\ calc_end_date c = (if is_last then mat else e) /\
  adjust a (later start (- fg)) Preceding = Ret (ROk (fixing_date c)) /\
  (if is_last then payment_date c = mat else adjust a (later e pg) cv = Ret (ROk (payment_date c))).
Proof.
  intros eff mat a cv fg pg i n s e c H start is_last. unfold make_coupon in H. fold start in H. fold is_last in H.
  unfold add_days, date_add in H.
  destruct (in_range (od_day start + - fg)) eqn:R1; cbn [obind] in H; [|discriminate H].
  change (Odt (od_day start + - fg) (od_ns start) (od_off start)) with (later start (- fg)) in H.
  destruct (adjust a (later start (- fg)) Preceding) as [[fx|]| |] eqn:E1; cbn [obind] in H; try discriminate H.
  destruct is_last; cbn [obind] in H.
  - injection H as <-. cbn [calc_start_date calc_end_date fixing_date payment_date]. auto.
  - destruct (in_range (od_day e + pg)) eqn:R2; cbn [obind] in H; [|discriminate H].
    change (Odt (od_day e + pg) (od_ns e) (od_off e)) with (later e pg) in H.
    destruct (adjust a (later e pg) cv) as [[px|]| |] eqn:E2; cbn [obind] in H; try discriminate H.
    injection H as <-. cbn [calc_start_date calc_end_date fixing_date payment_date]. auto.
Qed.

Lemma coupons_ok : forall eff mat a cv fg pg n v i l, coupons eff mat a cv fg pg i n v = Ret (ROk l) ->
  List.length l = (List.length v - 1)%nat /\
  forall k c, nth_error l k = Some c -> exists s e, nth_error v k = Some s /\ nth_error v (k + 1) = Some e /\
    make_coupon eff mat a cv fg pg (i + k) n s e = Ret (ROk c) /\ instant (calc_start_date c) < instant (calc_end_date c).
Proof.
  induction v as [|s v IH]; intros i l H; cbn [coupons] in H.
  - injection H as <-. split; [reflexivity|]. intros k c K. destruct k; discriminate K.
  - destruct v as [|e v].
    + injection H as <-. split; [reflexivity|]. intros k c K. destruct k; discriminate K.
    + destruct (make_coupon eff mat a cv fg pg i n s e) as [[c0|]| |] eqn:E; cbn [obind] in H; try discriminate H.
      destruct (Z.leb_spec (instant (calc_end_date c0)) (instant (calc_start_date c0))) as [L|L]; [discriminate H|].
      destruct (coupons eff mat a cv fg pg (i + 1) n (e :: v)) as [[cs|]| |] eqn:E2; cbn [obind] in H; try discriminate H.
      injection H as <-. destruct (IH _ _ E2) as [L1 L2]. split; [cbn [List.length] in *; lia|].
      intros k c K. destruct k as [|k].
      * cbn in K. injection K as <-. exists s, e. rewrite Nat.add_0_r. auto.
      * cbn in K. destruct (L2 k c K) as (s' & e' & A & B & C & D). exists s', e'. cbn [nth_error Nat.add].
        split; [exact A|]. split; [exact B|]. split; [replace (i + S k)%nat with (i + 1 + k)%nat by lia; exact C|exact D].
Qed.

Lemma Forall2_nth : forall A B (P : A -> B -> Prop) v w, Forall2 P v w -> forall k x y, nth_error v k = Some x -> nth_error w k = Some y -> P x y.
Proof.
  induction 1 as [|a b v w H1 H2 IH]; intros k x y Hx Hy; [destruct k; discriminate|].
  destruct k; cbn in *; [congruence|eauto].
Qed.
Lemma Forall2_length' : forall A B (P : A -> B -> Prop) v w, Forall2 P v w -> List.length v = List.length w.
Proof. induction 1; cbn; congruence. Qed.

(** the coupons are those on the raw dates *)
Lemma assemble_ok : forall eff mat a cv fg pg raw n v l,
  adjust_all a cv (map raw (seq 0 (S n))) = Ret (ROk v) ->
  coupons eff mat a cv fg pg 0 (List.length v - 1) v = Ret (ROk l) ->
  List.length l = n /\ built_on raw eff mat a cv fg pg l.
Proof.
  intros eff mat a cv fg pg raw n v l A C. apply adjust_all_ok in A.
  pose proof (Forall2_length' _ _ _ _ _ A) as LV. rewrite map_length, seq_length in LV.
  destruct (coupons_ok _ _ _ _ _ _ _ _ _ _ C) as [L K]. split; [lia|].
  intros i c Hc. destruct (K i c Hc) as (s & e & Hs & He & M & D). cbn [Nat.add] in M.
  assert (Hi : (i < List.length l)%nat) by (apply nth_error_Some; congruence).
  assert (Q : forall j x, (j <= n)%nat -> nth_error v j = Some x -> adjust a (raw j) cv = Ret (ROk x)).
  { intros j x Hj Hx. apply (Forall2_nth _ _ _ _ _ A j); [|exact Hx].
    rewrite nth_error_map, (nth_error_nth' _ 0%nat) by (rewrite seq_length; lia). rewrite seq_nth by lia. reflexivity. }
  pose proof (Q i s ltac:(lia) Hs) as Qs. pose proof (Q (i + 1)%nat e ltac:(lia) He) as Qe.
  destruct (make_coupon_ok _ _ _ _ _ _ _ _ _ _ _ M) as (M1 & M2 & M3 & M4). rewrite <- M1 in M3.
  split; [intros ->; exact M1|]. split; [|split; [|split; [|split; [exact M3|exact D]]]].
  - intro N. apply Nat.eqb_neq in N. rewrite N in M1. rewrite M1. exact Qs.
  - intros N E. apply Nat.eqb_neq in N. rewrite N in M2, M4. cbn [negb andb] in M2, M4.
    replace (i =? List.length v - 1 - 1)%nat with true in M2, M4 by (symmetry; apply Nat.eqb_eq; lia). auto.
  - intro N. assert (IL : negb (i =? 0)%nat && (i =? List.length v - 1 - 1)%nat = false).
    { destruct N as [->|N]; [reflexivity|]. apply andb_false_iff. right. apply Nat.eqb_neq. lia. }
    rewrite IL in M2, M4. rewrite M2. auto.
Qed.
