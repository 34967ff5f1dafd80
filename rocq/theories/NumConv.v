(** NumConv.v -- the converters read back what NumSpec writes. *)
From Coq Require Import ZArith List Lia Bool.
From Verif Require Import Base NumModel NumSpec NumProofs.
Import ListNotations.
Open Scope Z_scope.

Lemma digit_chars_length : forall n v, length (digit_chars n v) = n.
Proof.
  induction n as [|n IH]; intros v; [reflexivity|].
  cbn [digit_chars]. rewrite app_length, IH. cbn. lia.
Qed.

Lemma digit_chars_digits : forall n v, Forall (fun b => 48 <= b <= 57) (digit_chars n v).
Proof.
  induction n as [|n IH]; intros v; [constructor|].
  cbn [digit_chars]. apply Forall_app; split; [apply IH|]. constructor; [|constructor].
  pose proof (Z.mod_pos_bound v 10 ltac:(lia)). lia.
Qed.

Lemma nib_digit : forall d, 0 <= d <= 9 -> nib (48 + d) = d.
Proof.
  intros d H. assert (C : d = 0 \/ d = 1 \/ d = 2 \/ d = 3 \/ d = 4 \/ d = 5 \/ d = 6 \/ d = 7 \/ d = 8 \/ d = 9) by lia.
  repeat (destruct C as [->|C]; [reflexivity|]). subst. reflexivity.
Qed.

Lemma dec_digit_chars : forall n v, 0 <= v < 10 ^ Z.of_nat n -> dec (digit_chars n v) = v.
Proof.
  induction n as [|n IH]; intros v H.
  - cbn in *. lia.
  - rewrite Nat2Z.inj_succ, Z.pow_succ_r in H by lia.
    cbn [digit_chars]. rewrite dec_app, IH.
    + cbn [length]. change (dec [48 + v mod 10]) with (10 * 0 + nib (48 + v mod 10)).
      pose proof (Z.mod_pos_bound v 10 ltac:(lia)). rewrite nib_digit by lia.
      change (10 ^ Z.of_nat 1) with 10. pose proof (Z.div_mod v 10 ltac:(lia)). lia.
    + split; [apply Z.div_pos; lia|]. apply Z.div_lt_upper_bound; lia.
Qed.

(** Memory that shows the text [l] at offset [a]. *)
Definition shows (u : slice) (a : nat) (l : list Z) : Prop := bytes_of u a (length l) = l.

Lemma shows_app : forall u a l1 l2, shows u a (l1 ++ l2) <-> shows u a l1 /\ shows u (a + length l1) l2.
Proof.
  intros u a l1 l2. unfold shows. rewrite app_length, bytes_of_app. split.
  - intros H. assert (L : length (bytes_of u a (length l1)) = length l1) by apply bytes_of_length.
    split.
    + apply (f_equal (firstn (length l1))) in H.
      rewrite firstn_app, L, Nat.sub_diag, firstn_all2 in H by lia. cbn [firstn] in H. rewrite app_nil_r in H.
      rewrite firstn_app, Nat.sub_diag, firstn_all in H. cbn [firstn] in H. rewrite app_nil_r in H. exact H.
    + apply (f_equal (skipn (length l1))) in H.
      rewrite skipn_app, L, Nat.sub_diag, skipn_all2 in H by lia. cbn [skipn app] in H.
      rewrite skipn_app, Nat.sub_diag, skipn_all in H. exact H.
  - intros [H1 H2]. rewrite H1, H2. reflexivity.
Qed.

Lemma written_undotted : forall u a i p v, shows u a (written i p v) -> 0 <= v < capacity i p ->
  dec (undotted u a (i + p) p) = v.
Proof.
  intros u a i p v Sh Hv. unfold capacity in Hv. destruct p as [|d].
  - cbn [written] in Sh. unfold undotted. rewrite Nat.add_0_r in *. unfold shows in Sh.
    rewrite digit_chars_length in Sh. rewrite Sh. apply dec_digit_chars. replace (i + (0 - 1))%nat with i in Hv by lia. exact Hv.
  - replace (S d - 1)%nat with d in Hv by lia.
    cbn [written] in Sh. apply shows_app in Sh. destruct Sh as [S1 Sh].
    apply shows_app in Sh. destruct Sh as [_ S2]. unfold shows in S1, S2.
    rewrite !digit_chars_length in *. cbn [length] in S2.
    unfold undotted. replace (i + S d - S d)%nat with i by lia. replace (S d - 1)%nat with d by lia.
    rewrite S1, S2, dec_app, digit_chars_length.
    assert (P : 0 < 10 ^ Z.of_nat d) by (apply Z.pow_pos_nonneg; lia).
    rewrite Nat2Z.inj_add, Z.pow_add_r in Hv by lia.
    rewrite !dec_digit_chars.
    + pose proof (Z.div_mod v (10 ^ Z.of_nat d) ltac:(lia)). lia.
    + apply Z.mod_pos_bound; lia.
    + split; [apply Z.div_pos; lia|]. apply Z.div_lt_upper_bound; lia.
Qed.

(** Configurations on which [to_u64] works: at least one digit column, the
    number is at least as wide as the columns before it, and the trailing-point
    special case has room. *)
Definition cv_usable (cv : converter) : bool :=
  let size := cv_length cv in
  ((1 <=? size) && (cv_start cv <=? size) && (cv_point cv <=? size)
   && (if cv_point cv =? 1 then (2 <=? size) && (cv_start cv <=? 1) && negb (size =? 17) else true)
   && (if size <=? 16 then true else cv_start cv + 16 <=? size))%nat.

(** What [converter_new] built. *)
Definition cv_made (cv : converter) : Prop :=
  cv_end cv = cv_length cv /\
  cv_parser cv = (if (cv_length cv <=? 8)%nat then Under8 else if (cv_length cv <=? 16)%nat then Under16 else Under32) /\
  (cv_length cv <= 18)%nat.

Lemma converter_new_made : forall c cv, converter_new c = ROk cv ->
  cv_made cv /\ cv_cfg cv = c /\
  cv_start cv = (bool_nat (is_signed c) + unused_length c)%nat /\
  cv_point cv = (if drop_decimal_point c then 0 else decimal_point_length c)%nat /\
  cv_length cv = (digit_length c + if drop_decimal_point c then 0 else decimal_point_length c)%nat /\
  total_length c = (digit_length c + decimal_point_length c + unused_length c + bool_nat (is_signed c))%nat.
Proof.
  intros c cv H. unfold converter_new in H.
  destruct (check_validity c) eqn:V; [|discriminate H]. cbn [negb] in H.
  unfold check_validity in V. apply Nat.eqb_eq in V.
  set (s0 := (total_length c - unused_length c - bool_nat (is_signed c))%nat) in H.
  assert (E0 : s0 = (digit_length c + decimal_point_length c)%nat) by (unfold s0; lia).
  destruct (drop_decimal_point c).
  - assert (E1 : (s0 - decimal_point_length c)%nat = digit_length c) by lia. rewrite E1 in H.
    destruct (digit_length c <=? 8)%nat eqn:L8; [|destruct (digit_length c <=? 16)%nat eqn:L16;
      [|destruct (digit_length c <=? 18)%nat eqn:L18; [|discriminate H]]];
    injection H as <-; unfold cv_made; cbn [cv_end cv_length cv_parser cv_cfg cv_start cv_point];
    rewrite ?L8, ?L16; repeat split; try lia;
    repeat match goal with X : (_ <=? _)%nat = true |- _ => apply Nat.leb_le in X end; lia.
  - rewrite E0 in H.
    destruct (digit_length c + decimal_point_length c <=? 8)%nat eqn:L8;
      [|destruct (digit_length c + decimal_point_length c <=? 16)%nat eqn:L16;
      [|destruct (digit_length c + decimal_point_length c <=? 18)%nat eqn:L18; [|discriminate H]]];
    injection H as <-; unfold cv_made; cbn [cv_end cv_length cv_parser cv_cfg cv_start cv_point];
    rewrite ?L8, ?L16; repeat split; try lia;
    repeat match goal with X : (_ <=? _)%nat = true |- _ => apply Nat.leb_le in X end; lia.
Qed.

Definition read_width (n : nat) : nat := if (n <=? 8)%nat then 8 else if (n <=? 16)%nat then 16 else 32.

Lemma undotted_shift : forall u a b n p L C,
  undotted (Slice (fun i => s_at u (a + i)%nat) L C) b n p = undotted u (a + b) n p.
Proof.
  intros. unfold undotted. destruct p; rewrite !bytes_of_shift; [reflexivity|].
  f_equal. f_equal. lia.
Qed.

Lemma to_u64_ok : forall m cv u, cv_made cv -> cv_usable cv = true -> all_bytes u ->
  (cv_length cv <= s_len u)%nat -> (cv_start cv + read_width (cv_length cv) <= s_cap u)%nat ->
  to_u64 m cv u = Ret (dec (undotted u (cv_start cv) (cv_length cv) (cv_point cv))).
Proof.
  intros m cv u [Me [Mp Ml]] Us A L C. unfold to_u64.
  unfold cv_usable in Us.
  apply andb_prop in Us. destruct Us as [Us U5].
  apply andb_prop in Us. destruct Us as [Us U4].
  apply andb_prop in Us. destruct Us as [Us U3].
  apply andb_prop in Us. destruct Us as [U1 U2].
  apply Nat.leb_le in U1, U2, U3. rewrite Me.
  rewrite subslice_ok by lia. cbn [obind].
  set (v := Slice (fun i => s_at u (cv_start cv + i)%nat) (cv_length cv - cv_start cv) (s_cap u - cv_start cv)).
  assert (Av : all_bytes v) by (apply shifted_bytes; exact A).
  assert (Lv : s_len v = (cv_length cv - cv_start cv)%nat) by reflexivity.
  assert (Cv : s_cap v = (s_cap u - cv_start cv)%nat) by reflexivity.
  assert (P1 : cv_point cv = 1%nat -> (2 <= cv_length cv /\ cv_start cv <= 1 /\ cv_length cv <> 17)%nat).
  { intros E. rewrite E in U4. cbn [Nat.eqb] in U4.
    apply andb_prop in U4. destruct U4 as [U4 U6]. apply andb_prop in U4. destruct U4 as [U4 U7].
    apply Nat.leb_le in U4, U7. apply negb_true_iff, Nat.eqb_neq in U6. lia. }
  assert (R : run_parser m (cv_parser cv) v (cv_length cv) (cv_point cv)
              = Ret (dec (undotted v 0 (cv_length cv) (cv_point cv)))).
  { rewrite Mp. unfold read_width in C.
    destruct (Nat.leb_spec (cv_length cv) 8) as [L8|L8].
    - cbn [run_parser]. apply parse_under8_fp_ok; try assumption; try lia.
      intros E. specialize (P1 E). lia.
    - destruct (Nat.leb_spec (cv_length cv) 16) as [L16|L16].
      + cbn [run_parser]. apply parse_under16_fp_ok; try assumption; try lia.
        intros E. specialize (P1 E). lia.
      + apply Nat.leb_le in U5.
        cbn [run_parser]. apply parse_under32_fp_ok; try assumption; try lia. }
  rewrite R. unfold v. rewrite undotted_shift, Nat.add_0_r. reflexivity.
Qed.

Lemma as_i64_small : forall x, 0 <= x < 2 ^ 63 -> as_i64 x = x.
Proof. intros x H. unfold as_i64. destruct (Z.ltb_spec x (2 ^ 63)); lia. Qed.

Lemma as_i64_neg : forall x, 0 < x <= 2 ^ 63 -> as_i64 ((wnot 64 x + 1) mod two64) = - x.
Proof.
  intros x H. unfold wnot. change (2 ^ 64) with two64. change (2 ^ 63) with 9223372036854775808 in *.
  replace (two64 - 1 - x + 1) with (two64 - x) by ring.
  rewrite Z.mod_small by (unfold two64; lia).
  unfold as_i64. change (2 ^ 63) with 9223372036854775808.
  destruct (Z.ltb_spec (two64 - x) 9223372036854775808); unfold two64 in *; lia.
Qed.

Lemma capacity_small : forall i p, (i + p <= 18)%nat -> capacity i p <= 10 ^ 18.
Proof. intros i p H. unfold capacity. apply Z.pow_le_mono_r; lia. Qed.

(** ** The rollover loop *)
Lemma rollover_ok : forall m fuel prev date cur,
  0 <= prev -> 0 <= cur -> 0 <= date ->
  (prev <= cur \/ prev - cur < Z.of_nat fuel * day_nanos) ->
  cur + Z.max 0 (prev - cur + 9 * hour_nanos) + day_nanos < two64 ->
  date + Z.max 0 (prev - cur + 9 * hour_nanos) + day_nanos < two64 ->
  exists k, 0 <= k /\
    rollover m fuel prev date cur = Ret (date + k * day_nanos, cur + k * day_nanos) /\
    prev < cur + k * day_nanos + fifteen_hours /\
    (k = 0 \/ cur + (k - 1) * day_nanos + fifteen_hours <= prev).
Proof.
  intros m fuel. induction fuel as [|f IH]; intros prev date cur Hp Hc Hd Hf B2 B3.
  - assert (prev <= cur) by lia. cbn [rollover].
    unfold fifteen_hours, day_nanos, hour_nanos, second_nanos in *.
    rewrite uadd_ok by lia. cbn [obind].
    destruct (Z.leb_spec (15 * (3600 * 1000000000) + cur) prev) as [G|G]; [lia|].
    exists 0. rewrite !Z.mul_0_l, !Z.add_0_r. repeat split; try lia.
  - cbn [rollover].
    unfold fifteen_hours, day_nanos, hour_nanos, second_nanos in *.
    rewrite uadd_ok by lia. cbn [obind].
    destruct (Z.leb_spec (15 * (3600 * 1000000000) + cur) prev) as [G|G].
    + rewrite (uadd_ok m date) by lia. cbn [obind]. rewrite (uadd_ok m cur) by lia. cbn [obind].
      destruct (IH prev (date + 24 * (3600 * 1000000000)) (cur + 24 * (3600 * 1000000000))) as [k [K0 [K1 [K2 K3]]]];
        [lia | lia | lia | lia | lia | lia |].
      exists (k + 1). repeat split; [lia | rewrite K1; f_equal; f_equal; ring | lia |].
      right. destruct K3 as [->|K3]; lia.
    + exists 0. rewrite !Z.mul_0_l, !Z.add_0_r. repeat split; lia.
Qed.
