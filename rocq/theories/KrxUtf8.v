(** KrxUtf8.v -- the byte-level UTF-8 check accepts exactly the encodings. *)
From Coq Require Import ZArith List Lia Bool.
From Verif Require Import Base OBTypes NumModel KrxModel KrxSpec.
Import ListNotations.
Open Scope Z_scope.

Lemma ifT : forall A (b : bool) (x y : A), b = true -> (if b then x else y) = x.
Proof. intros A b x y ->. reflexivity. Qed.
Lemma ifF : forall A (b : bool) (x y : A), b = false -> (if b then x else y) = y.
Proof. intros A b x y ->. reflexivity. Qed.
Ltac arith := unfold within, cont in *; rewrite ?andb_true_iff, ?andb_false_iff, ?Z.ltb_lt, ?Z.ltb_ge, ?Z.leb_le, ?Z.leb_gt, ?Z.eqb_eq, ?Z.eqb_neq in *;
  Z.to_euclidean_division_equations; lia.

Lemma utf8_encode : forall c t, scalar c -> utf8_valid (encode c ++ t) = utf8_valid t.
Proof.
  intros c t H. unfold encode, scalar in *.
  destruct (Z.ltb_spec c 128).
  { cbn [app utf8_valid]. rewrite ifT by (apply Z.ltb_lt; lia). reflexivity. }
  destruct (Z.ltb_spec c 2048).
  { cbn [app utf8_valid]. rewrite ifF by arith. rewrite ifT by arith.
    replace (cont (128 + c mod 64)) with true by (symmetry; arith). reflexivity. }
  destruct (Z.ltb_spec c 65536).
  { cbn [app utf8_valid]. rewrite ifF by arith. rewrite ifF by arith. rewrite ifT by arith.
    replace (cont (128 + c mod 64)) with true by (symmetry; arith).
    destruct (Z.eqb_spec (224 + c / 4096) 224).
    { replace (within 160 (128 + c / 64 mod 64) 191) with true by (symmetry; arith). reflexivity. }
    destruct (Z.eqb_spec (224 + c / 4096) 237).
    { replace (within 128 (128 + c / 64 mod 64) 159) with true by (symmetry; arith). reflexivity. }
    replace (cont (128 + c / 64 mod 64)) with true by (symmetry; arith). reflexivity. }
  cbn [app utf8_valid]. rewrite ifF by arith. rewrite ifF by arith. rewrite ifF by arith. rewrite ifT by arith.
  replace (cont (128 + c mod 64)) with true by (symmetry; arith).
  replace (cont (128 + c / 64 mod 64)) with true by (symmetry; arith).
  destruct (Z.eqb_spec (240 + c / 262144) 240).
  { replace (within 144 (128 + c / 4096 mod 64) 191) with true by (symmetry; arith). reflexivity. }
  destruct (Z.eqb_spec (240 + c / 262144) 244).
  { replace (within 128 (128 + c / 4096 mod 64) 143) with true by (symmetry; arith). reflexivity. }
  replace (cont (128 + c / 4096 mod 64)) with true by (symmetry; arith). reflexivity.
Qed.

Lemma utf8_text_valid : forall l, utf8_text l -> utf8_valid l = true.
Proof.
  intros l [cs [F ->]]. induction cs as [|c cs IH]; [reflexivity|].
  inversion F; subst. cbn [map concat]. rewrite utf8_encode by assumption. apply IH. assumption.
Qed.

Lemma utf8_cons : forall c t, scalar c -> utf8_text t -> utf8_text (encode c ++ t).
Proof. intros c t H [cs [F ->]]. exists (c :: cs). split; [constructor; assumption | reflexivity]. Qed.

Lemma valid_utf8_text : forall n l, (length l <= n)%nat -> Forall byte l -> utf8_valid l = true -> utf8_text l.
Proof.
  induction n as [|n IH]; intros l L F V.
  { destruct l; [exists []; split; [constructor | reflexivity] | cbn [length] in L; lia]. }
  destruct l as [|a t]; [exists []; split; [constructor | reflexivity]|].
  cbn [utf8_valid] in V. inversion F as [|? ? Fa Ft]; subst. unfold byte in Fa. cbn [length] in L.
  destruct (Z.ltb_spec a 128).
  { replace (a :: t) with (encode a ++ t) by (unfold encode; rewrite ifT by (apply Z.ltb_lt; lia); reflexivity).
    apply utf8_cons; [unfold scalar; lia|]. apply IH; [lia | assumption | assumption]. }
  destruct (within 194 a 223) eqn:W2.
  { destruct t as [|b t]; [discriminate|]. apply andb_prop in V. destruct V as [V1 V].
    cbn [length] in L. inversion Ft as [|? ? Fb Ft']; subst. unfold byte in Fb.
    unfold within, cont in *. rewrite !andb_true_iff, !Z.leb_le in *.
    replace (a :: b :: t) with (encode ((a - 192) * 64 + (b - 128)) ++ t).
    - apply utf8_cons; [unfold scalar; lia|]. apply IH; [lia | assumption | assumption].
    - unfold encode. rewrite ifF by (apply Z.ltb_ge; lia). rewrite ifT by (apply Z.ltb_lt; lia).
      cbn [app]. f_equal; [|f_equal]; Z.to_euclidean_division_equations; lia. }
  destruct (within 224 a 239) eqn:W3.
  { destruct t as [|b [|c t]]; try discriminate. apply andb_prop in V. destruct V as [V V2].
    apply andb_prop in V. destruct V as [V0 V1].
    cbn [length] in L. inversion Ft as [|? ? Fb Ft']; subst. inversion Ft' as [|? ? Fc Ft'']; subst. unfold byte in Fb, Fc.
    assert (B : 128 <= b <= 191 /\ (a = 224 -> 160 <= b) /\ (a = 237 -> b <= 159)).
    { destruct (Z.eqb_spec a 224); [arith|]. destruct (Z.eqb_spec a 237); arith. }
    unfold within, cont in V1, W3. rewrite !andb_true_iff, !Z.leb_le in *.
    replace (a :: b :: c :: t) with (encode ((a - 224) * 4096 + (b - 128) * 64 + (c - 128)) ++ t).
    - apply utf8_cons; [unfold scalar; lia|]. apply IH; [lia | assumption | assumption].
    - unfold encode. rewrite ifF by (apply Z.ltb_ge; lia). rewrite ifF by (apply Z.ltb_ge; lia). rewrite ifT by (apply Z.ltb_lt; lia).
      cbn [app]. f_equal; [|f_equal; [|f_equal]]; Z.to_euclidean_division_equations; lia. }
  destruct (within 240 a 244) eqn:W4; [|discriminate].
  destruct t as [|b [|c [|d t]]]; try discriminate. apply andb_prop in V. destruct V as [V V3].
  apply andb_prop in V. destruct V as [V V2]. apply andb_prop in V. destruct V as [V0 V1].
  cbn [length] in L. inversion Ft as [|? ? Fb Ft']; subst. inversion Ft' as [|? ? Fc Ft'']; subst.
  inversion Ft'' as [|? ? Fd Ft3]; subst. unfold byte in Fb, Fc, Fd.
  assert (B : 128 <= b <= 191 /\ (a = 240 -> 144 <= b) /\ (a = 244 -> b <= 143)).
  { destruct (Z.eqb_spec a 240); [arith|]. destruct (Z.eqb_spec a 244); arith. }
  unfold within, cont in V1, V2, W4. rewrite !andb_true_iff, !Z.leb_le in *.
  replace (a :: b :: c :: d :: t) with (encode ((a - 240) * 262144 + (b - 128) * 4096 + (c - 128) * 64 + (d - 128)) ++ t).
  - apply utf8_cons; [unfold scalar; lia|]. apply IH; [lia | assumption | assumption].
  - unfold encode. rewrite ifF by (apply Z.ltb_ge; lia). rewrite ifF by (apply Z.ltb_ge; lia). rewrite ifF by (apply Z.ltb_ge; lia).
    cbn [app]. f_equal; [|f_equal; [|f_equal; [|f_equal]]]; Z.to_euclidean_division_equations; lia.
Qed.

Lemma utf8_valid_iff : forall l, Forall byte l -> (utf8_valid l = true <-> utf8_text l).
Proof. intros l F. split; [apply valid_utf8_text with (n := length l); [lia | exact F] | apply utf8_text_valid]. Qed.
