(** QMoneyProps.v -- C153 to C155: currencies, currency pairs, numbers with commas. *)
From Coq Require Import ZArith List Lia Bool Ascii.
From Verif Require Import Base KrxModel QMoneyModel.
Import ListNotations.
Open Scope Z_scope.

(** ** C153: currencies *)
Definition upper (c : ascii) : Prop := (65 <= nat_of_ascii c <= 90)%nat.
Definition three_letters (s : list ascii) : Prop := exists a b c, s = [a; b; c] /\ upper a /\ upper b /\ upper c.
Lemma bytes_eq : forall a b, bytes_eqb a b = true <-> a = b.
Proof.
  induction a as [|x a IH]; intros [|y b]; cbn; split; intro H; try reflexivity; try discriminate H.
  - apply andb_true_iff in H. destruct H as [H1 H2]. apply Ascii.eqb_eq in H1. apply IH in H2. congruence.
  - injection H as -> ->. rewrite Ascii.eqb_refl. apply IH. reflexivity.
Qed.
Theorem c153_code : forall c, three_letters (ccy_str c).
Proof. intros []; eexists _, _, _; (split; [reflexivity|]); unfold upper; cbn; lia. Qed.
Theorem c153_equal : forall a b, ccy_eqb a b = true <-> a = b.
Proof.
  intros a b. unfold ccy_eqb. rewrite Z.eqb_eq. split; [|intros ->; reflexivity]. intro H.
  assert (D : forall c, c = nth (Z.to_nat (ccy_index c)) [Ccy_NIL; Ccy_KRW; Ccy_USD; Ccy_EUR; Ccy_JPY; Ccy_CNY; Ccy_CNH; Ccy_GBP; Ccy_AUD; Ccy_CAD; Ccy_CHF; Ccy_NZD; Ccy_SEK; Ccy_NOK; Ccy_MXN; Ccy_ZAR; Ccy_BRL; Ccy_INR; Ccy_RUB; Ccy_TRY; Ccy_HKD; Ccy_SGD; Ccy_TWD; Ccy_THB; Ccy_IDR; Ccy_MYR; Ccy_PHP; Ccy_VND; Ccy_PKR; Ccy_LKR; Ccy_BDT; Ccy_NPR; Ccy_KZT; Ccy_UZS; Ccy_KGS; Ccy_TJS; Ccy_MNT; Ccy_AED; Ccy_SAR; Ccy_QAR; Ccy_OMR; Ccy_KWD; Ccy_BHD; Ccy_JOD; Ccy_ILS; Ccy_EGP; Ccy_ZMW] Ccy_NIL) by (intros []; reflexivity).
  rewrite (D a), (D b), H. reflexivity.
Qed.
(** printing and reading back *)
Theorem c153_round_trip : forall c, ccy_of (ccy_str c) = c.
Proof. intros []; reflexivity. Qed.
Theorem c153_distinct : forall a b, ccy_str a = ccy_str b -> a = b.
Proof. intros a b H. rewrite <- (c153_round_trip a), <- (c153_round_trip b), H. reflexivity. Qed.
(** what is not a code reads as NIL *)
Lemma arm_cases : forall s arms o, (exists t, In (t, first_arm s arms o) arms /\ s = t) \/ (first_arm s arms o = o /\ forall t c, In (t, c) arms -> s <> t).
Proof.
  intros s arms o. induction arms as [|[t c] arms IH]; cbn [first_arm].
  - right. split; [reflexivity|]. intros ? ? [].
  - destruct (bytes_eqb s t) eqn:E.
    + left. exists t. split; [left; reflexivity|apply bytes_eq; exact E].
    + destruct IH as [(u & I & Q)|[Q N]].
      * left. exists u. split; [right; exact I|exact Q].
      * right. split; [exact Q|]. intros u d [H|H]; [|exact (N u d H)]. injection H as <- <-. intro X. apply bytes_eq in X. congruence.
Qed.
Theorem c153_read : forall s, (ccy_of s = Ccy_NIL /\ forall c, c <> Ccy_NIL -> s <> ccy_str c) \/ s = ccy_str (ccy_of s).
Proof.
  intro s. unfold ccy_of. destruct (arm_cases s ccy_arms Ccy_NIL) as [(t & I & Q)|[Q N]].
  - right. subst t. assert (F : Forall (fun p => fst p = ccy_str (snd p)) ccy_arms) by (repeat constructor). rewrite List.Forall_forall in F. exact (F _ I).
  - left. split; [exact Q|]. intros c NC X. apply NC. rewrite <- (c153_round_trip c), <- X. exact Q.
Qed.

(** ** C154: currency pairs *)
Theorem c154_reciprocal : forall x, fx_reciprocal (fx_reciprocal x) = x /\ fx_one (fx_reciprocal x) = fx_two x /\ fx_two (fx_reciprocal x) = fx_one x /\ (fx_reciprocal x = x <-> fx_one x = fx_two x).
Proof. intros [a b]. cbn. repeat split; intro H; [injection H as H _; congruence|subst; reflexivity]. Qed.
Lemma upper_starts : forall c, upper c -> negb ((128 <=? nat_of_ascii c)%nat && (nat_of_ascii c <? 192)%nat) = true.
Proof. intros c U. unfold upper in U. rewrite (proj2 (Nat.leb_gt _ _)) by lia. reflexivity. Qed.
(** does not begin in the middle of a character *)
Definition starts_character (s : list ascii) : Prop := match s with [] => True | b :: _ => ~ (128 <= nat_of_ascii b < 192)%nat end.
Theorem c154_read : forall a b rest, starts_character rest -> fx_of (ccy_str a ++ ccy_str b ++ rest) = Ret (FxCode a b).
Proof.
  intros a b rest H. pose proof (c153_round_trip a) as Ra. pose proof (c153_round_trip b) as Rb.
  destruct (c153_code a) as (a1 & a2 & a3 & Ea & _ & _ & _). destruct (c153_code b) as (b1 & b2 & b3 & Eb & U & _ & _). rewrite Ea, Eb in *.
  cbn [app]. set (L := a1 :: a2 :: a3 :: b1 :: b2 :: b3 :: rest).
  assert (B3 : boundary L 3 = true) by exact (upper_starts b1 U).
  assert (B6 : boundary L 6 = true).
  { unfold boundary. change (nth_error L 6) with (nth_error rest 0). destruct rest as [|c rest]; [reflexivity|]. change (nth_error (c :: rest) 0) with (Some c). cbv beta iota.
    destruct (Nat.leb_spec 128 (nat_of_ascii c)) as [Q|Q]; [|reflexivity]. destruct (Nat.ltb_spec (nat_of_ascii c) 192) as [Q'|Q']; [|reflexivity]. exfalso. apply H. lia. }
  unfold fx_of, slice. rewrite B3, B6. change (boundary L 0) with true. unfold L. cbn [Nat.leb andb obind Nat.sub firstn skipn]. rewrite Ra, Rb. reflexivity.
Qed.
Theorem c154_round_trip : forall x, fx_of (fx_str x) = Ret x.
Proof. intros [a b]. unfold fx_str. cbn [fx_one fx_two]. rewrite <- (app_nil_r (ccy_str b)). apply c154_read. exact I. Qed.
Theorem c154_distinct : forall x y, fx_str x = fx_str y -> x = y.
Proof. intros x y H. pose proof (c154_round_trip x) as A. rewrite H, c154_round_trip in A. injection A as A. congruence. Qed.
(** it panics exactly on what has not six bytes, or has a character across the
    third or the sixth; on anything else the parts are read one by one *)
Theorem c154_panics : forall s, fx_of s = Panic <-> (length s < 6)%nat \/ ~ starts_character (skipn 3 s) \/ ~ starts_character (skipn 6 s).
Proof.
  intro s. unfold fx_of, slice. assert (B : forall i, (0 < i)%nat -> boundary s i = true <-> (i <= length s)%nat /\ starts_character (skipn i s)).
  { intros i P. unfold boundary. destruct i as [|i]; [lia|]. pose proof (nth_error_None s (S i)) as N1. pose proof (nth_error_Some s (S i)) as N2. destruct (nth_error s (S i)) as [c|] eqn:E.
    - assert (L : (S i < length s)%nat) by (apply N2; discriminate). assert (K : exists t, skipn (S i) s = c :: t).
      { clear - E. revert E. generalize (S i) as k. revert s. induction s as [|x s IH]; intros [|k] E; try discriminate E; [injection E as ->; eexists; reflexivity|apply IH; exact E]. }
      destruct K as (t & ->). cbn [starts_character]. rewrite negb_true_iff, andb_false_iff, Nat.leb_gt, Nat.ltb_ge. lia.
    - assert (L : (length s <= S i)%nat) by (apply N1; reflexivity). rewrite (skipn_all2 s L). cbn [starts_character]. rewrite Nat.eqb_eq. lia. }
  pose proof (B 3%nat ltac:(lia)) as B3. pose proof (B 6%nat ltac:(lia)) as B6. change (boundary s 0) with true. cbn [Nat.leb andb].
  assert (D : forall r, starts_character r \/ ~ starts_character r). { intros [|c r]; cbn; lia. }
  destruct (boundary s 3) eqn:E3; [destruct (boundary s 6) eqn:E6|]; cbn [obind andb].
  - split; [discriminate|]. destruct (proj1 B3 eq_refl). destruct (proj1 B6 eq_refl). intros [X|[X|X]]; [lia|contradiction|contradiction].
  - split; [|reflexivity]. intros _. destruct (D (skipn 6 s)) as [Q|Q]; [left|tauto]. destruct (Nat.lt_ge_cases (length s) 6) as [L|L]; [exact L|]. exfalso. assert (X : false = true) by (apply B6; auto). discriminate X.
  - split; [|reflexivity]. intros _. destruct (D (skipn 3 s)) as [Q|Q]; [left|tauto]. destruct (Nat.lt_ge_cases (length s) 3) as [L|L]; [lia|]. exfalso. assert (X : false = true) by (apply B3; auto). discriminate X.
Qed.
(** REFUTED: the serialized form is not read back: the second currency is lost *)
Theorem c154_serialized_refuted : forall x, fx_of (fx_serialized x) = Ret (FxCode (fx_one x) Ccy_NIL).
Proof.
  intros [a b]. unfold fx_serialized. cbn [fx_one fx_two]. destruct (c153_code b) as (b1 & b2 & b3 & Eb & _ & _ & U). rewrite Eb. pose proof (c153_round_trip a) as Ra. destruct (c153_code a) as (a1 & a2 & a3 & Ea & _). rewrite Ea in *.
  cbn [app]. set (L := a1 :: a2 :: a3 :: "_"%char :: b1 :: b2 :: b3 :: []). assert (B3 : boundary L 3 = true) by reflexivity. assert (B6 : boundary L 6 = true) by exact (upper_starts b3 U).
  unfold fx_of, slice. rewrite B3, B6. change (boundary L 0) with true. unfold L. cbn [Nat.leb andb obind Nat.sub firstn skipn]. rewrite Ra. reflexivity.
Qed.

(** ** C155: commas *)
(** the digits [d] written in groups of three from the right *)
Inductive in_threes : list ascii -> list ascii -> Prop :=
| it_short : forall d, (length d <= 3)%nat -> in_threes d d
| it_more : forall d g t, d <> [] -> length t = 3%nat -> in_threes d g -> in_threes (d ++ t) (g ++ ","%char :: t).
Definition free_of (c : ascii) (l : list ascii) : Prop := ~ In c l.

Lemma group_acc : forall l n acc, group_from n l acc = (group_from n l [] ++ acc)%list \/ l = [].
Proof.
  assert (G : forall l n a b, l <> [] -> (0 < n)%nat \/ a = [] -> group_from n l (a ++ b) = (group_from n l a ++ b)%list).
  { induction l as [|c l IH]; intros n a b H P; [contradiction|]. cbn [group_from]. destruct l as [|c' l].
    - cbn [group_from]. destruct ((0 <? n)%nat && (n mod 3 =? 0)%nat); reflexivity.
    - destruct ((0 <? n)%nat && (n mod 3 =? 0)%nat); [rewrite <- (IH (S n) (c :: ","%char :: a) b)|rewrite <- (IH (S n) (c :: a) b)]; try reflexivity; try discriminate; left; lia. }
  intros [|c l] n acc; [right; reflexivity|left]. rewrite <- (G (c :: l) n [] acc); [reflexivity|discriminate|right; reflexivity].
Qed.
Lemma group_shift : forall l n acc, (0 < n)%nat -> group_from (3 + n) l acc = group_from n l acc.
Proof.
  induction l as [|c l IH]; intros n acc P; [reflexivity|]. cbn [group_from]. replace ((3 + n) mod 3)%nat with (n mod 3)%nat.
  - replace (0 <? 3 + n)%nat with (0 <? n)%nat by (rewrite (proj2 (Nat.ltb_lt _ _) P); reflexivity). replace (S (3 + n)) with (3 + S n)%nat by lia. apply IH. lia.
  - replace (3 + n)%nat with (n + 1 * 3)%nat by lia. rewrite Nat.mod_add by lia. reflexivity.
Qed.
Lemma group_threes : forall k d, (length d <= k)%nat -> in_threes d (group_from 0 (rev d) []).
Proof.
  induction k as [|k IH]; intros d L.
  - destruct d; [|cbn in L; lia]. constructor. cbn. lia.
  - destruct (Nat.le_gt_cases (length d) 3) as [S|S].
    + assert (E : group_from 0 (rev d) [] = d); [|rewrite E; constructor; exact S]. destruct d as [|a [|b [|c [|e d]]]]; try reflexivity. cbn in S. lia.
    + set (a := firstn (length d - 3) d). set (t := skipn (length d - 3) d).
      assert (DA : d = (a ++ t)%list) by (symmetry; apply firstn_skipn).
      assert (LT : length t = 3%nat) by (unfold t; rewrite skipn_length; lia). assert (LA : length a = (length d - 3)%nat) by (unfold a; rewrite firstn_length; lia).
      assert (NA : a <> []) by (intro Q; rewrite Q in LA; cbn in LA; lia).
      assert (E : group_from 0 (rev d) [] = (group_from 0 (rev a) [] ++ ","%char :: t)%list).
      { rewrite DA, rev_app_distr. destruct t as [|x [|y [|z [|w t]]]]; try discriminate LT. cbn [rev app group_from Nat.ltb Nat.leb andb]. change (1 mod 3 =? 0)%nat with false. change (2 mod 3 =? 0)%nat with false. cbn [andb].
        assert (RA : rev a <> []) by (intro Q; apply NA; rewrite <- (rev_involutive a), Q; reflexivity). destruct (rev a) as [|c l]; [contradiction|]. cbn [group_from Nat.ltb Nat.leb andb]. change (3 mod 3 =? 0)%nat with true. change (0 mod 3 =? 0)%nat with true. cbn [andb].
        rewrite (group_shift l 1) by lia. destruct (group_acc l 1 [c]) as [Q|Q].
        - rewrite Q. destruct (group_acc l 1 (c :: ","%char :: [x; y; z])) as [Q'|Q']; [rewrite Q', <- app_assoc; reflexivity|subst l; reflexivity].
        - subst l. reflexivity. }
      rewrite E. rewrite DA at 1. constructor; [exact NA|exact LT|]. apply IH. lia.
Qed.
Lemma split_free : forall l r, free_of "."%char l -> split_dot (l ++ r) = match split_dot r with p :: q => (l ++ p) :: q | [] => [l] end.
Proof.
  induction l as [|c l IH]; intros r H; cbn [app split_dot].
  - destruct (split_dot r) eqn:E; [|reflexivity]. destruct r as [|x r]; [discriminate E|]. cbn in E. destruct (Ascii.eqb x "."%char); [discriminate E|]. destruct (split_dot r); discriminate E.
  - rewrite IH by (intro Q; apply H; right; exact Q). destruct (Ascii.eqb c "."%char) eqn:E; [exfalso; apply H; left; apply Ascii.eqb_eq; exact E|]. destruct (split_dot r); reflexivity.
Qed.
(** a sign, digits and decimals: only the digits change *)
Theorem c155_grouped : forall neg digits dec, free_of "."%char digits -> free_of "-"%char digits -> free_of "."%char dec ->
  let sign := if (neg : bool) then ["-"]%char else [] in let point := match dec with [] => [] | _ => "."%char :: dec end in
  exists g, in_threes digits g /\ with_commas (sign ++ digits ++ point) = (sign ++ g ++ point)%list.
Proof.
  intros neg digits dec D1 D2 D3 sign point. exists (group_from 0 (rev digits) []). split; [exact (group_threes _ digits (le_n _))|]. unfold with_commas. rewrite app_assoc.
  assert (F : free_of "."%char (sign ++ digits)). { intro Q. apply in_app_or in Q. destruct Q as [Q|Q]; [|exact (D1 Q)]. destruct neg; [destruct Q as [Q|[]]; discriminate Q|destruct Q]. }
  rewrite (split_free _ _ F).
  assert (P : split_dot point = [] :: match dec with [] => [] | _ => [dec] end).
  { unfold point. destruct dec as [|c dec]; [reflexivity|]. change (split_dot ("."%char :: c :: dec)) with ([] :: split_dot (c :: dec)). f_equal.
    pose proof (split_free _ [] D3) as Q. rewrite app_nil_r in Q. rewrite Q. cbn [split_dot]. rewrite app_nil_r. reflexivity. }
  rewrite P, app_nil_r. 
  assert (S : match (sign ++ digits)%list with c :: r => if Ascii.eqb c "-"%char then (true, r) else (false, (sign ++ digits)%list) | [] => (false, []) end = (neg, digits)).
  { unfold sign. destruct neg; [reflexivity|]. cbn [app]. destruct digits as [|c r]; [reflexivity|]. destruct (Ascii.eqb c "-"%char) eqn:E; [|reflexivity]. exfalso. apply D2. left. apply Ascii.eqb_eq. exact E. }
  rewrite S. unfold point, sign. destruct dec as [|c dec]; destruct neg; cbn [app]; rewrite ?app_nil_r; reflexivity.
Qed.
(** without the commas it is what it was *)
Definition no_comma (l : list ascii) : list ascii := filter (fun c => negb (Ascii.eqb c ","%char)) l.
Lemma no_comma_free : forall l, free_of ","%char l -> no_comma l = l.
Proof.
  induction l as [|c l IH]; intro H; [reflexivity|]. unfold no_comma in *. cbn [filter]. destruct (Ascii.eqb c ","%char) eqn:E; [exfalso; apply H; left; apply Ascii.eqb_eq; exact E|]. cbn [negb]. f_equal. apply IH. intro Q. apply H. right. exact Q.
Qed.
Lemma no_comma_app : forall a b, no_comma (a ++ b) = (no_comma a ++ no_comma b)%list.
Proof. intros. apply filter_app. Qed.
Theorem c155_digits_kept : forall d g, in_threes d g -> free_of ","%char d -> no_comma g = d.
Proof.
  intros d g H. induction H as [d L|d g t N L H IH]; intro F; [apply no_comma_free; exact F|]. rewrite no_comma_app. assert (FD : free_of ","%char d) by (intro Q; apply F; apply in_or_app; left; exact Q). rewrite (IH FD).
  assert (FT : free_of ","%char t) by (intro Q; apply F; apply in_or_app; right; exact Q). f_equal. change (","%char :: t) with ([","%char] ++ t)%list. rewrite no_comma_app, (no_comma_free t FT). reflexivity.
Qed.
Theorem c155_unique : forall d g g', in_threes d g -> in_threes d g' -> g = g'.
Proof.
  intros d g g' H. revert g'. induction H as [d L|d g t N L H IH]; intros g' H'.
  - inversion H' as [d' L'|d' g1 t1 N1 L1 H1 E1 E2]; subst; [reflexivity|]. exfalso. apply N1. rewrite app_length in L. destruct d'; [reflexivity|cbn in L; lia].
  - inversion H' as [d' L' E1|d' g1 t1 N1 L1 H1 E1 E2].
    + exfalso. apply N. subst. rewrite app_length in L'. destruct d; [reflexivity|cbn in L'; lia].
    + assert (LD : length d = length d') by (apply (f_equal (@length ascii)) in E1; rewrite !app_length in E1; lia).
      assert (Q : d' = d /\ t1 = t). { clear - LD E1. revert d' LD E1. induction d as [|x d IHd]; intros [|y d'] LD E1; try discriminate LD; [split; [reflexivity|exact E1]|]. cbn in LD, E1. injection E1 as -> E1. injection LD as LD. destruct (IHd d' LD E1) as [-> ->]. split; reflexivity. }
      destruct Q as [-> ->]. rewrite (IH g1 H1). reflexivity.
Qed.

(** ** Cases that meet the hypotheses *)
Example c154_hypotheses_met : starts_character [] /\ starts_character ["X"]%char /\ fx_of ["U";"S";"D";"K";"R";"W"]%char = Ret (FxCode Ccy_USD Ccy_KRW) /\ fx_of ["U";"S";"D"]%char = Panic /\
  fx_of ["U";"S";"D";"_";"K";"R";"W"]%char = Ret (FxCode Ccy_USD Ccy_NIL).
Proof. repeat split; cbn; lia. Qed.
Example c155_hypotheses_met : let d := ["1";"2";"3";"4";"5";"6";"7"]%char in free_of "."%char d /\ free_of "-"%char d /\ free_of ","%char d /\
  with_commas (["-"] ++ d ++ ["."; "5"])%char = ["-";"1";",";"2";"3";"4";",";"5";"6";"7";".";"5"]%char.
Proof. cbn zeta. repeat split; unfold free_of; cbn; try (intros H; repeat (destruct H as [H|H]; [discriminate H|]); exact H). Qed.
Print Assumptions c153_code.
Print Assumptions c153_equal.
Print Assumptions c153_round_trip.
Print Assumptions c153_distinct.
Print Assumptions c153_read.
Print Assumptions c154_reciprocal.
Print Assumptions c154_read.
Print Assumptions c154_round_trip.
Print Assumptions c154_distinct.
Print Assumptions c154_panics.
Print Assumptions c154_serialized_refuted.
Print Assumptions c155_grouped.
Print Assumptions c155_digits_kept.
Print Assumptions c155_unique.
