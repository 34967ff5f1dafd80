(** QCalScan.v -- no calendar of the library, alone or jointly, is closed for long.

    The kernel evaluates the rules on every day of the years 1900..2200 and on
    one year of each kind (leap or not, weekday of January 1st) before and
    after; outside 1901..2199 the rules do not look at the year. *)
From Coq Require Import ZArith List Bool Lia.
From Verif Require Import Base CivilSpec QDateModel QDateProofs QCalTables QCalModel QCalProofs.
Import ListNotations.
Open Scope Z_scope.

Fixpoint zor (a b : list bool) : list bool :=
  match a, b with x :: a', y :: b' => (x || y) :: zor a' b' | _, _ => [] end.
Definition wd_closed (t w : Z) : bool := 5 <=? (w + t) mod 7.

(** Only the entries of the year at hand are looked through. *)
Definition of_year (y : Z) (l : list (Z * Z * Z)) : list (Z * Z * Z) := filter (fun e => fst (fst e) =? y) l.
Definition kr_fast (b c e : list (Z * Z * Z)) (f : fields) : bool :=
  if weekend f then true
  else
    let m := f_month f in let d := f_day f in
    if is_lunar_new_year f || (if negb (within 1951 2050 (f_year f)) then false else date_in b f)
       || (if negb (within 1951 2050 (f_year f)) then false else date_in c f) || is_labour_day f
       || ((m =? 1) && (d =? 1)) || ((m =? 3) && (d =? 1)) || ((m =? 5) && (d =? 5)) || ((m =? 6) && (d =? 6))
       || ((m =? 8) && (d =? 15)) || ((m =? 10) && (d =? 3)) || ((m =? 10) && (d =? 9)) || ((m =? 12) && (d =? 25))
    then true
    else if is_temporary_holiday f then true
    else if negb (within 1951 2050 (f_year f)) then false else date_in e f.

Lemma date_in_of_year : forall l f, date_in (of_year (f_year f) l) f = date_in l f.
Proof.
  intros l f. induction l as [|[[y m] d] l IH]; [reflexivity|].
  unfold of_year in *. cbn [filter fst]. unfold date_in in *. cbn [existsb].
  destruct (Z.eqb_spec y (f_year f)).
  - cbn [existsb]. rewrite IH. subst y. rewrite Z.eqb_refl. reflexivity.
  - cbn [orb]. exact IH.
Qed.

Lemma kr_fast_ok : forall y f, f_year f = y ->
  kr_fast (of_year y buddha_days) (of_year y chuseok_days) (of_year y year_last_days) f =
  base_closed (new_south_korea KrKrx) f.
Proof.
  intros y f <-. unfold kr_fast. rewrite !date_in_of_year. reflexivity.
Qed.

Definition lists_of (kr : fields -> bool) (fs : list fields) (nx : bool) : list (list bool) :=
  let w := map f_weekday fs in
  let k := map kr fs in
  let u1 := map (base_closed (new_united_states UsSettlement)) fs in
  let u2 := map (base_closed (new_united_states UsNyse)) fs in
  let u3 := map (base_closed (new_united_states UsSofr)) fs in
  let u := zor u1 (zor u2 u3) in
  let k' := tl k ++ [nx] in
  [map (base_closed NullCalendar) fs; k; u1; u2; u3] ++
  flat_map (fun t => let z := zor u (map (wd_closed t) w) in [zor z k; zor z k']) [-1; 0; 1; 2].
Definition lists (y : Z) : list (list bool) :=
  lists_of (base_closed (new_south_korea KrKrx)) (year_fields y)
    (base_closed (new_south_korea KrKrx) (unpack (year_start (y + 1)))).
Definition fast_lists (y : Z) : list (list bool) :=
  let b := of_year y buddha_days in let c := of_year y chuseok_days in let e := of_year y year_last_days in
  lists_of (kr_fast b c e) (year_fields y) (base_closed (new_south_korea KrKrx) (unpack (year_start (y + 1)))).

Lemma year_days_from_year : forall l n y w o f, In f (year_days_from l n y w o) -> f_year f = y.
Proof.
  induction l as [|[m d] l IH]; intros n y w o f H; [destruct H|]. cbn [year_days_from In] in H.
  destruct H as [<-|H]; [reflexivity|]. eapply IH. exact H.
Qed.

Strategy expand [fast_lists lists year_fields].

Lemma lists_of_ext : forall kr kr' fs nx, map kr fs = map kr' fs -> lists_of kr fs nx = lists_of kr' fs nx.
Proof. intros kr kr' fs nx E. unfold lists_of. rewrite E. reflexivity. Qed.

Lemma fast_lists_ok : forall y, fast_lists y = lists y.
Proof.
  intro y. unfold fast_lists, lists. cbv zeta.
  assert (E : map (kr_fast (of_year y buddha_days) (of_year y chuseok_days) (of_year y year_last_days)) (year_fields y)
    = map (base_closed (new_south_korea KrKrx)) (year_fields y)).
  { apply map_ext_in. intros f H. apply kr_fast_ok. exact (year_days_from_year _ _ _ _ _ _ H). }
  exact (lists_of_ext _ _ _ _ E).
Qed.

(** the bound on runs, and the longest run carried over New Year *)
Definition limits : list (Z * Z) :=
  [(7, 3); (7, 3); (7, 3); (7, 3); (7, 3);
   (14, 8); (14, 8); (14, 8); (14, 8); (14, 8); (14, 8); (14, 8); (14, 8)].

Fixpoint check (ks : list (Z * Z)) (ls : list (list bool)) : bool :=
  match ks, ls with
  | (K, r0) :: ks', l :: ls' =>
      match run_after K l r0 with Some q => if q <=? r0 then check ks' ls' else false | None => false end
  | [], [] => true
  | _, _ => false
  end.

Lemma check_nth : forall i ks ls, check ks ls = true -> (i < length ks)%nat ->
  exists q, run_after (fst (nth i ks (0, 0))) (nth i ls []) (snd (nth i ks (0, 0))) = Some q /\
    q <= snd (nth i ks (0, 0)).
Proof.
  intros i ks. revert i. induction ks as [|[K r0] ks IH]; intros i ls H Hi; [cbn in Hi; lia|].
  destruct ls as [|l ls]; [discriminate|]. cbn [check] in H.
  destruct (run_after K l r0) as [q|] eqn:E; [|discriminate].
  destruct (Z.leb_spec q r0); [|discriminate].
  destruct i as [|i]; cbn [nth fst snd].
  - exists q. auto.
  - apply IH; [exact H|cbn in Hi; lia].
Qed.

(** ** The years of the tables, one by one *)
Fixpoint all_years (P : Z -> bool) (k : nat) (y : Z) : bool :=
  match k with O => true | S k' => if P y then all_years P k' (y + 1) else false end.

Lemma all_years_spec : forall P k y, all_years P k y = true ->
  forall z, y <= z < y + Z.of_nat k -> P z = true.
Proof.
  intros P. induction k as [|k IH]; intros y H z Hz; [lia|]. cbn [all_years] in H.
  destruct (P y) eqn:E; [|discriminate].
  destruct (Z.eq_dec z y) as [->|]; [exact E|]. apply (IH (y + 1) H). lia.
Qed.

Definition year_ok (y : Z) : bool := check limits (fast_lists y).
Strategy expand [year_ok].

Lemma table_years : all_years year_ok 301 1900 = true.
Proof. vm_cast_no_check (eq_refl true). Qed.

(** ** The other years: the fourteen kinds of year *)
Definition late_years : list Z := [2201; 2202; 2203; 2204; 2205; 2206; 2208; 2209; 2210; 2212; 2216; 2220; 2224; 2228].
Definition early_years : list Z := [1801; 1802; 1803; 1804; 1805; 1806; 1808; 1809; 1810; 1812; 1816; 1820; 1824; 1828].

Lemma kinds_of_year : forallb year_ok (late_years ++ early_years) = true.
Proof. vm_cast_no_check (eq_refl true). Qed.

Definition same_kind (y y' : Z) : bool :=
  eqb (leapb y) (leapb y') && (date_weekday (year_start y) =? date_weekday (year_start y')).

Lemma year_days_from_rules : forall c (R : Z -> Prop),
  (forall n y m d w o y' n', R y -> R y' -> base_closed c (Fields n y m d w o) = base_closed c (Fields n' y' m d w o)) ->
  forall l n y w o n' y', R y -> R y' ->
  map (base_closed c) (year_days_from l n y w o) = map (base_closed c) (year_days_from l n' y' w o).
Proof.
  intros c R H l. induction l as [|[m d] l IH]; intros n y w o n' y' Hy Hy'; [reflexivity|].
  cbn [year_days_from map]. f_equal; [apply H; assumption|apply IH; assumption].
Qed.

Lemma year_days_from_weekday : forall l n y w o n' y',
  map f_weekday (year_days_from l n y w o) = map f_weekday (year_days_from l n' y' w o).
Proof.
  induction l as [|[m d] l IH]; intros n y w o n' y'; [reflexivity|]. cbn [year_days_from map f_weekday]. f_equal. apply IH.
Qed.

Lemma unpack_jan1 : forall y, unpack (year_start y) = Fields (year_start y) y 1 1 (date_weekday (year_start y)) 1.
Proof.
  intro y. assert (V : valid_date y 1 1) by (split; [lia|unfold month_days; cbn; lia]).
  assert (N : day_number y 1 1 = year_start y) by (unfold day_number; rewrite month_start_1; lia).
  destruct (fields_of_date y 1 1 V) as (A & B & C). rewrite N in *.
  rewrite unpack_fields, A, B, C. unfold date_ordinal. rewrite A. f_equal. lia.
Qed.

Lemma lists_same_kind : forall (R : Z -> Prop) y y',
  (forall c n y m d w o y' n', R y -> R y' -> base_closed c (Fields n y m d w o) = base_closed c (Fields n' y' m d w o)) ->
  R y -> R y' -> R (y + 1) -> R (y' + 1) -> same_kind y y' = true -> lists y = lists y'.
Proof.
  intros R y y' H A B C D E. unfold same_kind in E. rewrite andb_true_iff, eqb_true_iff, Z.eqb_eq in E.
  destruct E as [E1 E2].
  assert (F : forall c, map (base_closed c) (year_fields y) = map (base_closed c) (year_fields y')).
  { intro c. unfold year_fields. rewrite E1, E2. apply (year_days_from_rules c R); auto. }
  assert (G : map f_weekday (year_fields y) = map f_weekday (year_fields y')).
  { unfold year_fields. rewrite E1, E2. apply year_days_from_weekday. }
  assert (J : forall c, base_closed c (unpack (year_start (y + 1))) = base_closed c (unpack (year_start (y' + 1)))).
  { intro c. rewrite !unpack_jan1.
    assert (W : date_weekday (year_start (y + 1)) = date_weekday (year_start (y' + 1))).
    { rewrite !year_next. unfold year_days. rewrite E1. unfold date_weekday in *.
      destruct (leapb y'); Z.to_euclidean_division_equations; lia. }
    rewrite W. apply H; assumption. }
  unfold lists, lists_of. rewrite G, !F, J. reflexivity.
Qed.

Lemma leapb_400k : forall k y, leapb (y + 400 * k) = leapb y.
Proof.
  intros k y. unfold leapb.
  replace ((y + 400 * k) mod 4) with (y mod 4) by (replace (y + 400 * k) with (y + (100 * k) * 4) by lia; symmetry; apply Z.mod_add; lia).
  replace ((y + 400 * k) mod 100) with (y mod 100) by (replace (y + 400 * k) with (y + (4 * k) * 100) by lia; symmetry; apply Z.mod_add; lia).
  replace ((y + 400 * k) mod 400) with (y mod 400) by (replace (y + 400 * k) with (y + k * 400) by lia; symmetry; apply Z.mod_add; lia).
  reflexivity.
Qed.
Lemma year_start_400k : forall k y, year_start (y + 400 * k) = year_start y + 146097 * k.
Proof.
  intros k y. rewrite !year_start_closed.
  replace ((y + 400 * k - 1) / 4) with ((y - 1) / 4 + 100 * k) by (replace (y + 400 * k - 1) with (y - 1 + (100 * k) * 4) by lia; rewrite Z.div_add by lia; lia).
  replace ((y + 400 * k - 1) / 100) with ((y - 1) / 100 + 4 * k) by (replace (y + 400 * k - 1) with (y - 1 + (4 * k) * 100) by lia; rewrite Z.div_add by lia; lia).
  replace ((y + 400 * k - 1) / 400) with ((y - 1) / 400 + k) by (replace (y + 400 * k - 1) with (y - 1 + k * 400) by lia; rewrite Z.div_add by lia; lia).
  lia.
Qed.
Lemma same_kind_400k : forall k y y', same_kind (y + 400 * k) y' = same_kind y y'.
Proof.
  intros. unfold same_kind. rewrite leapb_400k, year_start_400k. f_equal. f_equal.
  unfold date_weekday. replace (year_start y + 146097 * k + 3) with (year_start y + 3 + (20871 * k) * 7) by lia.
  apply Z.mod_add. lia.
Qed.

Lemma all_kinds : forallb (fun y => existsb (same_kind y) late_years && existsb (same_kind y) early_years)
  (map Z.of_nat (seq 0 400)) = true.
Proof. vm_compute. reflexivity. Qed.

Lemma some_kind : forall y, (exists z, In z late_years /\ same_kind y z = true) /\
  (exists z, In z early_years /\ same_kind y z = true).
Proof.
  intro y. pose proof all_kinds as A. rewrite forallb_forall in A.
  specialize (A (y mod 400)). rewrite andb_true_iff, !existsb_exists in A.
  pose proof (Z.mod_pos_bound y 400 ltac:(lia)).
  assert (E : y = y mod 400 + 400 * (y / 400)) by (pose proof (Z.div_mod y 400 ltac:(lia)); lia).
  destruct A as [A B].
  - apply in_map_iff. exists (Z.to_nat (y mod 400)). split; [lia|]. apply in_seq. lia.
  - split; [destruct A as (z & A1 & A2)|destruct B as (z & A1 & A2)]; exists z; (split; [exact A1|]);
      rewrite E, same_kind_400k; exact A2.
Qed.

Lemma year_ok_lists : forall y y', lists y = lists y' -> year_ok y' = true -> year_ok y = true.
Proof. intros y y' E H. unfold year_ok in *. rewrite (fast_lists_ok y), E, <- (fast_lists_ok y'). exact H. Qed.

Lemma every_year_checked : forall y, year_ok y = true.
Proof.
  intro y. pose proof kinds_of_year as A. rewrite forallb_forall in A.
  destruct (some_kind y) as [(z & Z1 & Z2) (z' & Z1' & Z2')].
  destruct (Z_le_gt_dec y 1899) as [E|E].
  - apply (year_ok_lists y z'); [|apply A; apply in_or_app; right; exact Z1'].
    apply (lists_same_kind (fun y => y <= 1900)); [|lia|cbn in Z1'; lia|lia|cbn in Z1'; lia|exact Z2'].
    intros. apply rules_early; assumption.
  - destruct (Z_le_gt_dec 2201 y) as [L|L].
    + apply (year_ok_lists y z); [|apply A; apply in_or_app; left; exact Z1].
      apply (lists_same_kind (fun y => y >= 2200)); [|lia|cbn in Z1; lia|lia|cbn in Z1; lia|exact Z2].
      intros. apply rules_late; assumption.
    + apply (all_years_spec _ _ _ table_years). lia.
Qed.

(** ** What the lists are *)
Definition on (c : calendar) (n : Z) : bool := base_closed c (unpack n).
Definition us_closed (n : Z) : bool :=
  on (new_united_states UsSettlement) n || (on (new_united_states UsNyse) n || on (new_united_states UsSofr) n).
Definition kr_closed (n : Z) : bool := on (new_south_korea KrKrx) n.
Definition we_closed (n : Z) : bool := weekend (unpack n).
Definition union_closed (s t : Z) (n : Z) : bool := us_closed n || we_closed (n + t) || kr_closed (n + s).

Lemma zor_map : forall A (f g : A -> bool) l, zor (map f l) (map g l) = map (fun x => f x || g x) l.
Proof. intros A f g l. induction l as [|x l IH]; [reflexivity|]. cbn. f_equal. exact IH. Qed.

Lemma tl_map_next : forall (g : Z -> bool) k n, (0 < k)%nat ->
  tl (map g (upto k n)) ++ [g (n + Z.of_nat k)] = map (fun x => g (x + 1)) (upto k n).
Proof.
  intros g k. induction k as [|k IH]; intros n Hk; [lia|].
  cbn [upto map tl]. destruct k as [|k].
  - reflexivity.
  - specialize (IH (n + 1) ltac:(lia)). cbn [upto map tl app] in *. f_equal.
    rewrite <- IH. f_equal. f_equal. f_equal. lia.
Qed.

Lemma wd_closed_we : forall t n, wd_closed t (f_weekday (unpack n)) = we_closed (n + t).
Proof.
  intros t n. unfold wd_closed, we_closed, weekend, Sat, Sun. cbn [f_weekday unpack]. unfold date_weekday.
  replace (((n + 3) mod 7 + t) mod 7) with ((n + t + 3) mod 7)
    by (Z.to_euclidean_division_equations; lia).
  pose proof (Z.mod_pos_bound (n + t + 3) 7 ltac:(lia)).
  destruct (Z.leb_spec 5 ((n + t + 3) mod 7)); destruct (Z.eqb_spec ((n + t + 3) mod 7) 5);
    destruct (Z.eqb_spec ((n + t + 3) mod 7) 6); cbn; try reflexivity; lia.
Qed.

Definition member (i : nat) : Z -> bool :=
  match i with
  | 0%nat => on NullCalendar | 1%nat => on (new_south_korea KrKrx)
  | 2%nat => on (new_united_states UsSettlement) | 3%nat => on (new_united_states UsNyse)
  | 4%nat => on (new_united_states UsSofr)
  | 5%nat => union_closed 0 (-1) | 6%nat => union_closed 1 (-1)
  | 7%nat => union_closed 0 0 | 8%nat => union_closed 1 0
  | 9%nat => union_closed 0 1 | 10%nat => union_closed 1 1
  | 11%nat => union_closed 0 2 | _ => union_closed 1 2
  end.

Lemma lists_member : forall i y, (i < 13)%nat ->
  nth i (lists y) [] = map (member i) (upto (Z.to_nat (year_days y)) (year_start y)).
Proof.
  intros i y Hi. unfold lists, lists_of. rewrite year_fields_unpack.
  set (k := Z.to_nat (year_days y)). set (n := year_start y).
  assert (E1 : year_start (y + 1) = n + Z.of_nat k).
  { unfold n, k. rewrite year_next, Z2Nat.id; [reflexivity|]. unfold year_days. destruct (leapb y); lia. }
  assert (Hk : (0 < k)%nat) by (unfold k, year_days; destruct (leapb y); vm_compute; lia).
  rewrite E1. clearbody k n. clear E1 y.
  rewrite !map_map, !zor_map.
  change (fun x => base_closed (new_south_korea KrKrx) (unpack x)) with kr_closed.
  change (base_closed (new_south_korea KrKrx) (unpack (n + Z.of_nat k))) with (kr_closed (n + Z.of_nat k)).
  rewrite tl_map_next by exact Hk.
  cbn [flat_map app].
  do 13 (destruct i as [|i]; [cbn [nth member]; rewrite ?map_map, ?zor_map; apply map_ext; intro x;
    rewrite ?wd_closed_we; unfold union_closed, us_closed, on; rewrite ?Z.add_0_r; reflexivity|]).
  lia.
Qed.

Theorem member_gap : forall i m, (i < 13)%nat ->
  exists x, m <= x < m + fst (nth i limits (0, 0)) /\ member i x = false.
Proof.
  intros i m Hi.
  apply (gaps_below (member i) (fun y => nth i (lists y) []) (fun y => lists_member i y Hi)
    (fst (nth i limits (0, 0)))) with (r0 := snd (nth i limits (0, 0))).
  - do 13 (destruct i as [|i]; [cbn; lia|]). lia.
  - do 13 (destruct i as [|i]; [cbn; lia|]). lia.
  - intro y. apply check_nth; [|exact Hi]. rewrite <- (fast_lists_ok y). exact (every_year_checked y).
Qed.

(** The FederalReserve and GovernmentBond calendars close at most when
    Settlement and Sofr do; Korean settlement when the exchange does. *)
Ltac or_cases H := repeat match type of H with (_ || _) = true => apply orb_true_iff in H; destruct H as [H|H] end.

Definition wider (c : calendar) : calendar :=
  match kind c with
  | SouthKorea KrSettlement a r => new_south_korea KrKrx
  | UnitedStates UsFederalReserve a r => new_united_states UsSettlement
  | UnitedStates UsGovernmentBond a r => new_united_states UsSofr
  | k => k
  end.

Lemma wider_closed : forall c n, on c n = true -> on (wider c) n = true.
Proof.
  intros c n. unfold on. rewrite (kind_closed c). unfold base_closed.
  destruct (weekend (unpack n)); [reflexivity|].
  destruct c as [|[] a r|[] a r]; try (intro H; exact H); unfold wider; cbn [kind new_south_korea new_united_states].
  - unfold is_base_holiday, kr_is_holiday.
    destruct (_ || _); [reflexivity|]. destruct (is_temporary_holiday (unpack n)); [reflexivity|]. discriminate.
  - unfold is_base_holiday, us_is_holiday. destruct (is_good_friday (unpack n) false); [reflexivity|]. intro H; exact H.
  - unfold is_base_holiday, new_united_states, us_is_holiday, is_juneteenth. cbv zeta. generalize (is_washington_birthday (unpack n)),
      (is_memorial_day (unpack n)), (is_labor_day (unpack n)), (is_columbus_day (unpack n)),
      (is_veterans_day_no_saturday (unpack n)).
    intros b1 b2 b3 b4 b5 H. rewrite !andb_false_r, ?orb_false_r, ?andb_true_r in *.
    or_cases H; rewrite ?H, ?orb_true_r; try reflexivity;
    apply andb_true_iff in H; destruct H as [H1 H2]; apply orb_true_iff in H1; destruct H1 as [H1|H1];
      rewrite H1, H2; rewrite ?orb_true_r; reflexivity.
Qed.

Lemma wider_member : forall c, exists i, (i < 5)%nat /\ forall x, member i x = on (wider c) x.
Proof.
  intros [|[] a r|[] a r];
    [exists 0%nat|exists 1%nat|exists 1%nat|exists 2%nat|exists 3%nat|exists 4%nat|exists 2%nat|exists 4%nat];
    (split; [lia|reflexivity]).
Qed.

(** Any seven consecutive days include a business day of each calendar... *)
Theorem base_gap : forall c m, exists x, m <= x < m + 7 /\ on c x = false.
Proof.
  intros c m. destruct (wider_member c) as (i & Hi & M).
  destruct (member_gap i m ltac:(lia)) as (x & X1 & X2).
  exists x. split.
  - do 5 (destruct i as [|i]; [exact X1|]). lia.
  - rewrite M in X2. destruct (on c x) eqn:E; [|reflexivity]. rewrite (wider_closed c x E) in X2. discriminate.
Qed.

(** ... and any fourteen one on which all of them are open, whatever the part
    of the day (the Korean date is the American one or the next; a null
    calendar reads the date in its own offset). *)
Theorem union_gap : forall s t m, 0 <= s <= 1 -> -1 <= t <= 2 ->
  exists x, m <= x < m + 14 /\ union_closed s t x = false.
Proof.
  intros s t m Hs Ht.
  assert (exists i, (5 <= i < 13)%nat /\ member i = union_closed s t) as (i & Hi & M).
  { assert (s = 0 \/ s = 1) as [->| ->] by lia;
    (assert (t = -1 \/ t = 0 \/ t = 1 \/ t = 2) as [->|[->|[->| ->]]] by lia);
    [exists 5%nat|exists 7%nat|exists 9%nat|exists 11%nat|exists 6%nat|exists 8%nat|exists 10%nat|exists 12%nat];
    (split; [lia|reflexivity]). }
  destruct (member_gap i m ltac:(lia)) as (x & X1 & X2).
  exists x. rewrite <- M. split; [|exact X2].
  do 5 (destruct i as [|i]; [lia|]). do 8 (destruct i as [|i]; [exact X1|]). lia.
Qed.
