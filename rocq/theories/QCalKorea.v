(** QCalKorea.v -- the Korean calendars. *)
From Coq Require Import ZArith List Bool Lia.
From Verif Require Import Base CivilSpec QDateModel QDateProofs QCalTables QCalModel QCalProofs QCalSpec QCalAdjust QCalAdjust2 QCalRules.
Import ListNotations.
Open Scope Z_scope.

Definition valid_dateb (e : Z * Z * Z) : bool :=
  match e with (y, m, d) => (1 <=? m) && (m <=? 12) && (1 <=? d) && (d <=? month_days y m) end.
Lemma valid_all : forall l, forallb valid_dateb l = true ->
  Forall (fun e => match e with (y, m, d) => valid_date y m d end) l.
Proof.
  intros l H. rewrite forallb_forall in H. apply Forall_forall. intros [[y m] d] I. specialize (H _ I).
  unfold valid_dateb in H. rewrite !andb_true_iff, !Z.leb_le in H. unfold valid_date. lia.
Qed.

Lemma date_in_iff : forall l n, forallb valid_dateb l = true -> (date_in l (unpack n) = true <-> listed l n).
Proof.
  intros l n H. rewrite listed_iff by (apply valid_all; exact H). unfold date_in. rewrite unpack_fields. cbn [f_year f_month f_day].
  assert (E : existsb (fun e => let '(y, m, d) := e in if y =? date_year n then (m =? date_month n) && (d =? date_day n) else false) l =
    existsb (fun e => let '(y, m, d) := e in (date_year n =? y) && (date_month n =? m) && (date_day n =? d)) l).
  { clear H. induction l as [|[[y m] d] l IH]; [reflexivity|]. cbn [existsb]. rewrite IH. f_equal.
    rewrite (Z.eqb_sym y), (Z.eqb_sym m), (Z.eqb_sym d). destruct (_ =? y); reflexivity. }
  rewrite E. reflexivity.
Qed.

Definition years_in (a b : Z) (l : list (Z * Z * Z)) : bool :=
  forallb (fun e => match e with (y, _, _) => (a <=? y) && (y <=? b) end) l.
Lemma listed_year : forall a b l n, forallb valid_dateb l = true -> years_in a b l = true -> listed l n -> a <= date_year n <= b.
Proof.
  intros a b l n V Y (y & m & d & I & E). apply valid_all in V. rewrite Forall_forall in V. specialize (V _ I). cbn in V.
  unfold years_in in Y. rewrite forallb_forall in Y. specialize (Y _ I). cbn in Y. rewrite andb_true_iff, !Z.leb_le in Y.
  apply date_is in E; [|exact V]. lia.
Qed.

Lemma buddha_tables : forallb valid_dateb buddha_days = true /\ years_in 1951 2050 buddha_days = true.
Proof. split; vm_compute; reflexivity. Qed.
Lemma chuseok_tables : forallb valid_dateb chuseok_days = true /\ years_in 1951 2050 chuseok_days = true.
Proof. split; vm_compute; reflexivity. Qed.
Lemma last_tables : forallb valid_dateb year_last_days = true.
Proof. vm_compute. reflexivity. Qed.

Lemma table_iff : forall l n, forallb valid_dateb l = true -> years_in 1951 2050 l = true ->
  ((if negb (within 1951 2050 (f_year (unpack n))) then false else date_in l (unpack n)) = true <-> listed l n).
Proof.
  intros l n V Y. rewrite unpack_fields at 1. cbn [f_year]. pose proof (listed_year _ _ _ n V Y) as L. unfold within.
  rewrite <- (date_in_iff l n V) in *.
  destruct (Z.leb_spec 1951 (date_year n)), (Z.leb_spec (date_year n) 2050); cbn [andb negb]; try tauto;
    (split; [discriminate|]; intro X; specialize (L X); lia).
Qed.

(** table days of the year lie in 2 .. 364 *)
Lemma lunar_table : forallb (fun o => (20 <=? o) && (o <=? 55)) korean_lunar_newyears = true /\ length korean_lunar_newyears = 150%nat.
Proof. split; vm_compute; reflexivity. Qed.
Lemma lunar_range : forall y, 1901 <= y <= 2050 -> year_start y + 19 <= lunar_new_year y <= year_start y + 54.
Proof.
  intros y H. destruct lunar_table as [T L]. rewrite forallb_forall in T.
  specialize (T (nth (Z.to_nat (y - 1901)) korean_lunar_newyears 0)).
  rewrite andb_true_iff, !Z.leb_le in T. unfold lunar_new_year.
  assert (In (nth (Z.to_nat (y - 1901)) korean_lunar_newyears 0) korean_lunar_newyears) by (apply nth_In; lia).
  specialize (T H0). lia.
Qed.

Lemma lunar_iff : forall n, is_lunar_new_year (unpack n) = true <->
  exists y, 1901 <= y <= 2050 /\ lunar_new_year y - 1 <= n <= lunar_new_year y + 1.
Proof.
  intro n. unfold is_lunar_new_year. rewrite unpack_fields. cbn [f_year f_date].
  assert (U : forall y, 1901 <= y <= 2050 -> lunar_new_year y - 1 <= n <= lunar_new_year y + 1 -> date_year n = y).
  { intros y Hy Hn. pose proof (lunar_range y Hy). apply date_year_unique. rewrite year_next.
    assert (365 <= year_days y) by (unfold year_days; destruct (leapb y); lia). lia. }
  destruct (Z.ltb_spec 2050 (date_year n)); [|destruct (Z.ltb_spec (date_year n) 1901)]; cbn [orb].
  1,2: (split; [discriminate|]; intros (y & Hy & Hn); specialize (U y Hy Hn); lia).
  fold (lunar_new_year (date_year n)). rewrite !orb_true_iff, !Z.eqb_eq. split.
  - intro X. exists (date_year n). lia.
  - intros (y & Hy & Hn). rewrite (U y Hy Hn). lia.
Qed.

Lemma fixed_iff : forall l n, forallb (fun e => match e with (m, d) => (1 <=? m) && (m <=? 12) && (1 <=? d) && (d <=? 28) end) l = true ->
  (fixed_day l n <-> existsb (fun e => match e with (m, d) => (date_month n =? m) && (date_day n =? d) end) l = true).
Proof.
  intros l n H. rewrite forallb_forall in H. rewrite existsb_exists.
  assert (V : forall m d y, In (m, d) l -> valid_date y m d).
  { intros m d y I. specialize (H _ I). cbn in H. rewrite !andb_true_iff, !Z.leb_le in H.
    pose proof (month_days_range y m). split; lia. }
  split.
  - intros (y & m & d & I & E). exists (m, d). split; [exact I|]. apply date_is in E; [|apply V; exact I].
    rewrite andb_true_iff, !Z.eqb_eq. tauto.
  - intros ([m d] & I & E). rewrite andb_true_iff, !Z.eqb_eq in E. exists (date_year n), m, d. split; [exact I|].
    apply date_is; [apply V; exact I|tauto].
Qed.

Lemma kr_holiday_iff : forall n, kr_is_holiday KrSettlement (unpack n) = true <-> korean_holiday n.
Proof.
  intro n. unfold korean_holiday. rewrite fixed_iff by reflexivity.
  rewrite <- (date_in_iff korean_temporary n) by reflexivity. rewrite <- lunar_iff.
  rewrite <- (table_iff buddha_days n) by apply buddha_tables. rewrite <- (table_iff chuseok_days n) by apply chuseok_tables.
  fold (is_buddha_birthday (unpack n)). fold (is_chuseok (unpack n)).
  unfold kr_is_holiday. cbv zeta. change (date_in korean_temporary (unpack n)) with (is_temporary_holiday (unpack n)).
  generalize (is_lunar_new_year (unpack n)) (is_buddha_birthday (unpack n)) (is_chuseok (unpack n)) (is_temporary_holiday (unpack n)).
  intros b1 b2 b3 b4. unfold is_labour_day. rewrite unpack_fields. cbn [f_month f_day]. unfold korean_fixed. cbn [existsb].
  generalize ((date_month n =? 1) && (date_day n =? 1)) ((date_month n =? 3) && (date_day n =? 1)) ((date_month n =? 5) && (date_day n =? 1))
    ((date_month n =? 5) && (date_day n =? 5)) ((date_month n =? 6) && (date_day n =? 6)) ((date_month n =? 8) && (date_day n =? 15))
    ((date_month n =? 10) && (date_day n =? 3)) ((date_month n =? 10) && (date_day n =? 9)) ((date_month n =? 12) && (date_day n =? 25)).
  intros c1 c2 c3 c4 c5 c6 c7 c8 c9.
  assert (R : forall x z : bool, (if x then true else if z then true else false) = x || z) by (intros [] []; reflexivity).
  rewrite R, orb_false_r, !orb_true_iff. tauto.
Qed.

Lemma krx_parts : forall n, kr_is_holiday KrKrx (unpack n) = kr_is_holiday KrSettlement (unpack n) || is_last_business_day_of_year (unpack n).
Proof.
  intro n. unfold kr_is_holiday. cbv zeta. generalize (is_last_business_day_of_year (unpack n)). intro b.
  match goal with |- (if ?x then _ else if ?z then _ else _) = _ => destruct x, z end; reflexivity.
Qed.

(** the table of last days: December days, Monday to Friday, no weekday after *)
Definition last_ok (e : Z * Z * Z) : bool :=
  match e with (y, m, d) =>
    (m =? 12) && (29 <=? d) && (d <=? 31) && (weekday (day_number y 12 d) <? 5) &&
    forallb (fun k => (k <=? d) || (5 <=? weekday (day_number y 12 k))) [29; 30; 31] end.
Lemma last_entries : forallb last_ok year_last_days = true.
Proof. vm_compute. reflexivity. Qed.
Lemma last_complete : forallb (fun k => existsb (fun e => fst (fst e) =? 1951 + Z.of_nat k) year_last_days) (seq 0 100) = true.
Proof. vm_compute. reflexivity. Qed.

Lemma last_unique : forall y n n', last_weekday_of_year y n -> last_weekday_of_year y n' -> n = n'.
Proof. intros y n n' (A & B & C) (A' & B' & C'). specialize (C n' A' B'). specialize (C' n A B). lia. Qed.

Lemma last_entry : forall y m d, In (y, m, d) year_last_days -> last_weekday_of_year y (day_number y m d).
Proof.
  intros y m d I. pose proof last_entries as F. rewrite forallb_forall in F. specialize (F _ I). unfold last_ok in F.
  rewrite !andb_true_iff, Z.eqb_eq, !Z.leb_le, Z.ltb_lt in F. destruct F as ((((-> & F1) & F2) & F3) & F4).
  cbn [forallb] in F4. rewrite !andb_true_iff, !orb_true_iff, !Z.leb_le in F4.
  set (B := year_start y + month_start y 12 + 30).
  assert (E : forall k, day_number y 12 k = B + (k - 31)) by (intro; unfold day_number, B; lia). clearbody B.
  assert (S0 : day_number y 1 1 <= day_number y 12 1).
  { unfold day_number. rewrite month_start_1. pose proof (month_start_mono y 1 12 ltac:(lia) ltac:(lia) ltac:(lia)) as M.
    rewrite month_start_1 in M. pose proof (month_days_range y 1). lia. }
  rewrite E in *. rewrite !E in F4.
  split; [unfold in_the_year; rewrite E; lia|]. split.
  - unfold weekend_day, Saturday, Sunday. lia.
  - intros k Hk W. unfold in_the_year in Hk. rewrite E in Hk.
    destruct (Z_le_gt_dec k (B + (d - 31))) as [L|G]; [exact L|exfalso]. apply W.
    pose proof (weekday_range k) as R. unfold weekend_day, Saturday, Sunday.
    assert (X : k = B + (29 - 31) \/ k = B + (30 - 31) \/ k = B + (31 - 31)) by lia.
    destruct F4 as (A & A' & A'' & _). destruct X as [X|[X|X]]; rewrite <- X in *; [destruct A|destruct A'|destruct A'']; lia.
Qed.

Lemma krx_last_iff : forall n, is_last_business_day_of_year (unpack n) = true <->
  exists y, 1951 <= y <= 2050 /\ last_weekday_of_year y n.
Proof.
  intro n. unfold is_last_business_day_of_year.
  assert (E : (if negb (within 1951 2050 (f_year (unpack n))) then false else date_in year_last_days (unpack n)) = true <->
     listed year_last_days n /\ 1951 <= date_year n <= 2050).
  { rewrite <- (date_in_iff _ n last_tables). rewrite unpack_fields at 1. cbn [f_year]. unfold within.
    destruct (Z.leb_spec 1951 (date_year n)), (Z.leb_spec (date_year n) 2050); cbn [andb negb]; try tauto;
      (split; [discriminate|lia]). }
  rewrite E. clear E.
  assert (V : forall y m d, In (y, m, d) year_last_days -> valid_date y m d).
  { intros y m d I. pose proof (valid_all _ last_tables) as V. rewrite Forall_forall in V. exact (V _ I). }
  split.
  - intros [(y & m & d & I & ->) Y]. exists y. split; [|exact (last_entry _ _ _ I)].
    rewrite (proj1 (fields_of_date y m d (V _ _ _ I))) in Y. exact Y.
  - intros (y & Hy & L). pose proof last_complete as F. rewrite forallb_forall in F. specialize (F (Z.to_nat (y - 1951))).
    rewrite existsb_exists in F. destruct F as ([[y' m] d] & I & E); [apply in_seq; lia|].
    cbn [fst] in E. apply Z.eqb_eq in E. rewrite Z2Nat.id in E by lia. replace (1951 + (y - 1951)) with y in E by lia. subst y'.
    pose proof (last_unique y _ _ L (last_entry _ _ _ I)) as ->. 
    rewrite (proj1 (fields_of_date y m d (V _ _ _ I))). split; [|exact Hy].
    exists y, m, d. split; [exact I|reflexivity].
Qed.

Lemma kr_no_edits : forall ty n, holiday_on (new_south_korea ty) n = true <->
  weekend_day n \/ kr_is_holiday ty (unpack n) = true.
Proof.
  intros ty n. rewrite <- weekend_iff. unfold holiday_on. cbn [is_removed_holiday is_added_holiday is_base_holiday new_south_korea existsb].
  destruct (weekend (unpack n)); [tauto|]. destruct (kr_is_holiday ty (unpack n)); split; intro X; try tauto; try discriminate; destruct X; discriminate.
Qed.

Theorem korean_settlement_days : forall n, holiday_on (new_south_korea KrSettlement) n = true <-> weekend_day n \/ korean_holiday n.
Proof. intro n. rewrite kr_no_edits, kr_holiday_iff. reflexivity. Qed.

Theorem krx_days : forall n, holiday_on (new_south_korea KrKrx) n = true <->
  weekend_day n \/ korean_holiday n \/ exists y, 1951 <= y <= 2050 /\ last_weekday_of_year y n.
Proof. intro n. rewrite kr_no_edits, krx_parts, orb_true_iff, kr_holiday_iff, krx_last_iff. reflexivity. Qed.

(** the tables against the length of the lunar month *)
Definition lunationsb (k a : Z) : bool := (-200 <=? 100 * a - 2953 * k) && (100 * a - 2953 * k <=? 200).
Lemma lunationsb_iff : forall k a, lunationsb k a = true <-> lunations k a.
Proof. intros. unfold lunationsb, lunations. rewrite andb_true_iff, !Z.leb_le. reflexivity. Qed.

Lemma buddha_lunar : forallb (fun k => let y := 1951 + Z.of_nat k in
  match filter (fun e => fst (fst e) =? y) buddha_days with
  | [(_, m, d)] => lunationsb 3 (day_number y m d - 7 - lunar_new_year y) || lunationsb 4 (day_number y m d - 7 - lunar_new_year y)
  | _ => false
  end) (seq 0 100) = true.
Proof. vm_compute. reflexivity. Qed.
Lemma chuseok_lunar : forallb (fun k => let y := 1951 + Z.of_nat k in
  match filter (fun e => fst (fst e) =? y) chuseok_days with
  | [(_, m1, d1); (_, m2, d2); (_, m3, d3)] =>
      (day_number y m1 d1 =? day_number y m2 d2 - 1) && (day_number y m3 d3 =? day_number y m2 d2 + 1) &&
      (lunationsb 7 (day_number y m2 d2 - 14 - lunar_new_year y) || lunationsb 8 (day_number y m2 d2 - 14 - lunar_new_year y))
  | _ => false
  end) (seq 0 100) = true.
Proof. vm_compute. reflexivity. Qed.
Lemma seollal_lunar : forallb (fun k => let y := 1901 + Z.of_nat k in
  lunationsb 12 (lunar_new_year (y + 1) - lunar_new_year y) || lunationsb 13 (lunar_new_year (y + 1) - lunar_new_year y)) (seq 0 149) = true.
Proof. vm_compute. reflexivity. Qed.
Lemma seollal_season : forallb (fun k => let y := 1901 + Z.of_nat k in
  (day_number y 1 21 <=? lunar_new_year y) && (lunar_new_year y <=? day_number y 2 21)) (seq 0 150) = true.
Proof. vm_compute. reflexivity. Qed.

Lemma filter_year : forall l y n, forallb valid_dateb l = true ->
  (listed l n /\ date_year n = y <-> exists m d, In (y, m, d) (filter (fun e => fst (fst e) =? y) l) /\ n = day_number y m d).
Proof.
  intros l y n V. apply valid_all in V. rewrite Forall_forall in V. split.
  - intros [(y' & m & d & I & E) Y]. assert (H : date_year n = y') by (apply (date_is n y' m d) in E; [tauto|exact (V _ I)]).
    assert (Q : y' = y) by congruence. clear H Y. subst y'. exists m, d. split; [|exact E]. apply filter_In. split; [exact I|]. apply Z.eqb_refl.
  - intros (m & d & I & E). apply filter_In in I. destruct I as [I _]. split; [exists y, m, d; auto|].
    apply (date_is n y m d) in E; [tauto|exact (V _ I)].
Qed.

Lemma buddha_year : forall y, 1951 <= y <= 2050 ->
  exists b, (forall n, (listed buddha_days n /\ date_year n = y) <-> n = b) /\
    (lunations 3 (b - 7 - lunar_new_year y) \/ lunations 4 (b - 7 - lunar_new_year y)).
Proof.
  intros y H. pose proof buddha_lunar as F. rewrite forallb_forall in F. specialize (F (Z.to_nat (y - 1951))).
  cbv zeta in F. rewrite Z2Nat.id in F by lia. replace (1951 + (y - 1951)) with y in F by lia.
  specialize (F ltac:(apply in_seq; lia)).
  assert (L : forall n, (listed buddha_days n /\ date_year n = y) <->
     exists m d, In (y, m, d) (filter (fun e => fst (fst e) =? y) buddha_days) /\ n = day_number y m d)
    by (intro n; apply filter_year; apply buddha_tables).
  assert (S1 : forall e, In e (filter (fun e => fst (fst e) =? y) buddha_days) -> fst (fst e) = y)
    by (intros e He; apply filter_In in He; apply Z.eqb_eq; apply He).
  destruct (filter (fun e => fst (fst e) =? y) buddha_days) as [|[[y1 m] d] [|? ?]]; try discriminate F.
  exists (day_number y m d). split.
  - intro n. rewrite L. pose proof (S1 (y1, m, d) (or_introl eq_refl)) as Q. cbn in Q. subst y1. split.
    + intros (m' & d' & [E|[]] & ->). injection E as -> ->. reflexivity.
    + intros ->. exists m, d. split; [left; reflexivity|reflexivity].
  - rewrite orb_true_iff, !lunationsb_iff in F. exact F.
Qed.

Lemma chuseok_year : forall y, 1951 <= y <= 2050 ->
  exists c, (forall n, (listed chuseok_days n /\ date_year n = y) <-> c - 1 <= n <= c + 1) /\
    (lunations 7 (c - 14 - lunar_new_year y) \/ lunations 8 (c - 14 - lunar_new_year y)).
Proof.
  intros y H. pose proof chuseok_lunar as F. rewrite forallb_forall in F. specialize (F (Z.to_nat (y - 1951))).
  cbv zeta in F. rewrite Z2Nat.id in F by lia. replace (1951 + (y - 1951)) with y in F by lia.
  specialize (F ltac:(apply in_seq; lia)).
  assert (L : forall n, (listed chuseok_days n /\ date_year n = y) <->
     exists m d, In (y, m, d) (filter (fun e => fst (fst e) =? y) chuseok_days) /\ n = day_number y m d)
    by (intro n; apply filter_year; apply chuseok_tables).
  assert (S1 : forall e, In e (filter (fun e => fst (fst e) =? y) chuseok_days) -> fst (fst e) = y)
    by (intros e He; apply filter_In in He; apply Z.eqb_eq; apply He).
  destruct (filter (fun e => fst (fst e) =? y) chuseok_days) as [|[[y1 m1] d1] [|[[y2 m2] d2] [|[[y3 m3] d3] [|? ?]]]]; try discriminate F.
  rewrite !andb_true_iff, orb_true_iff, !lunationsb_iff, !Z.eqb_eq in F. destruct F as ((F1 & F2) & F3).
  exists (day_number y m2 d2). split; [|exact F3].
  pose proof (S1 (y1, m1, d1) (or_introl eq_refl)) as Q1. pose proof (S1 (y2, m2, d2) (or_intror (or_introl eq_refl))) as Q2.
  pose proof (S1 (y3, m3, d3) (or_intror (or_intror (or_introl eq_refl)))) as Q3. cbn in Q1, Q2, Q3. subst y1 y2 y3.
  intro n. rewrite L. split.
  - intros (m' & d' & [E|[E|[E|[]]]] & ->); injection E as <- <-; lia.
  - intro X. assert (C : n = day_number y m1 d1 \/ n = day_number y m2 d2 \/ n = day_number y m3 d3) by lia.
    destruct C as [->|[->| ->]]; [exists m1, d1|exists m2, d2|exists m3, d3]; (split; [cbn; auto|reflexivity]).
Qed.
