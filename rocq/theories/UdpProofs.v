(** UdpProofs.v -- the lossy decoding, byte by byte. *)
From Coq Require Import ZArith List Lia Bool.
From Verif Require Import Base OBTypes NumModel KrxModel KrxSpec KrxUtf8 UdpModel.
Import ListNotations.
Open Scope Z_scope.

Ltac arith2 := unfold second3, second4 in *; repeat match goal with |- context [?x =? ?y] => destruct (Z.eqb_spec x y) end; arith.

Lemma lossy_encode : forall c t, scalar c -> lossy (encode c ++ t) = encode c ++ lossy t.
Proof.
  intros c t H. unfold encode, scalar in *.
  destruct (Z.ltb_spec c 128).
  { cbn [app lossy]. rewrite ifT by (apply Z.ltb_lt; lia). reflexivity. }
  destruct (Z.ltb_spec c 2048).
  { cbn [app lossy]. rewrite ifF by arith. rewrite ifT by arith. rewrite ifT by arith. reflexivity. }
  destruct (Z.ltb_spec c 65536).
  { cbn [app lossy]. rewrite ifF by arith. rewrite ifF by arith. rewrite ifT by arith.
    rewrite ifT by arith2. rewrite ifT by arith. reflexivity. }
  cbn [app lossy]. rewrite ifF by arith. rewrite ifF by arith. rewrite ifF by arith. rewrite ifT by arith.
  rewrite ifT by arith2. rewrite ifT by arith. rewrite ifT by arith. reflexivity.
Qed.

Lemma lossy_text : forall cs t, Forall scalar cs -> lossy (concat (map encode cs) ++ t) = concat (map encode cs) ++ lossy t.
Proof.
  induction cs as [|c cs IH]; intros t F; [reflexivity|]. inversion F; subst.
  cbn [map concat]. rewrite <- !app_assoc, lossy_encode by assumption. f_equal. apply IH. assumption.
Qed.

Lemma replacement_char : replacement = encode 65533.
Proof. reflexivity. Qed.
Lemma replaced : forall t, utf8_text t -> utf8_text (replacement ++ t).
Proof. intros t H. rewrite replacement_char. apply utf8_cons; [unfold scalar; lia | exact H]. Qed.
Lemma replaced0 : utf8_text replacement.
Proof. rewrite <- (app_nil_r replacement). apply replaced. exists []. split; [constructor | reflexivity]. Qed.

Lemma lossy_valid : forall n l, (length l <= n)%nat -> Forall byte l -> utf8_text (lossy l).
Proof.
  induction n as [|n IH]; intros l L F.
  { destruct l; [exists []; split; [constructor | reflexivity] | cbn [length] in L; lia]. }
  destruct l as [|a t]; [exists []; split; [constructor | reflexivity]|].
  cbn [lossy]. inversion F as [|? ? Fa Ft]; subst. unfold byte in Fa. cbn [length] in L.
  pose proof (IH t ltac:(lia) Ft) as It.
  destruct (Z.ltb_spec a 128).
  { replace (a :: lossy t) with (encode a ++ lossy t) by (unfold encode; rewrite ifT by (apply Z.ltb_lt; lia); reflexivity).
    apply utf8_cons; [unfold scalar; lia | exact It]. }
  destruct (within 194 a 223) eqn:W2.
  { destruct t as [|b t]; [apply replaced0|]. destruct (cont b) eqn:V1; [|apply replaced; exact It].
    cbn [length] in L. inversion Ft as [|? ? Fb Ft']; subst. pose proof (IH t ltac:(lia) Ft') as It'. unfold byte in Fb.
    unfold within, cont in *. rewrite !andb_true_iff, !Z.leb_le in *.
    replace (a :: b :: lossy t) with (encode ((a - 192) * 64 + (b - 128)) ++ lossy t).
    - apply utf8_cons; [unfold scalar; lia | exact It'].
    - unfold encode. rewrite ifF by (apply Z.ltb_ge; lia). rewrite ifT by (apply Z.ltb_lt; lia).
      cbn [app]. f_equal; [|f_equal]; Z.to_euclidean_division_equations; lia. }
  destruct (within 224 a 239) eqn:W3.
  { destruct t as [|b t]; [apply replaced0|]. destruct (second3 a b) eqn:V0; [|apply replaced; exact It].
    cbn [length] in L. inversion Ft as [|? ? Fb Ft']; subst. pose proof (IH t ltac:(lia) Ft') as It'.
    destruct t as [|c t]; [apply replaced0|]. destruct (cont c) eqn:V1; [|apply replaced; exact It'].
    cbn [length] in L. inversion Ft' as [|? ? Fc Ft'']; subst. pose proof (IH t ltac:(lia) Ft'') as It''. unfold byte in Fb, Fc.
    assert (B : 128 <= b <= 191 /\ (a = 224 -> 160 <= b) /\ (a = 237 -> b <= 159)).
    { unfold second3 in V0. destruct (Z.eqb_spec a 224); [arith|]. destruct (Z.eqb_spec a 237); arith. }
    unfold within, cont in V1, W3. rewrite !andb_true_iff, !Z.leb_le in *.
    replace (a :: b :: c :: lossy t) with (encode ((a - 224) * 4096 + (b - 128) * 64 + (c - 128)) ++ lossy t).
    - apply utf8_cons; [unfold scalar; lia | exact It''].
    - unfold encode. rewrite ifF by (apply Z.ltb_ge; lia). rewrite ifF by (apply Z.ltb_ge; lia). rewrite ifT by (apply Z.ltb_lt; lia).
      cbn [app]. f_equal; [|f_equal; [|f_equal]]; Z.to_euclidean_division_equations; lia. }
  destruct (within 240 a 244) eqn:W4; [|apply replaced; exact It].
  destruct t as [|b t]; [apply replaced0|]. destruct (second4 a b) eqn:V0; [|apply replaced; exact It].
  cbn [length] in L. inversion Ft as [|? ? Fb Ft']; subst. pose proof (IH t ltac:(lia) Ft') as It'.
  destruct t as [|c t]; [apply replaced0|]. destruct (cont c) eqn:V1; [|apply replaced; exact It'].
  cbn [length] in L. inversion Ft' as [|? ? Fc Ft'']; subst. pose proof (IH t ltac:(lia) Ft'') as It''.
  destruct t as [|d t]; [apply replaced0|]. destruct (cont d) eqn:V2; [|apply replaced; exact It''].
  cbn [length] in L. inversion Ft'' as [|? ? Fd Ft3]; subst. pose proof (IH t ltac:(lia) Ft3) as It3. unfold byte in Fb, Fc, Fd.
  assert (B : 128 <= b <= 191 /\ (a = 240 -> 144 <= b) /\ (a = 244 -> b <= 143)).
  { unfold second4 in V0. destruct (Z.eqb_spec a 240); [arith|]. destruct (Z.eqb_spec a 244); arith. }
  unfold within, cont in V1, V2, W4. rewrite !andb_true_iff, !Z.leb_le in *.
  replace (a :: b :: c :: d :: lossy t) with (encode ((a - 240) * 262144 + (b - 128) * 4096 + (c - 128) * 64 + (d - 128)) ++ lossy t).
  - apply utf8_cons; [unfold scalar; lia | exact It3].
  - unfold encode. rewrite ifF by (apply Z.ltb_ge; lia). rewrite ifF by (apply Z.ltb_ge; lia). rewrite ifF by (apply Z.ltb_ge; lia).
    cbn [app]. f_equal; [|f_equal; [|f_equal; [|f_equal]]]; Z.to_euclidean_division_equations; lia.
Qed.

(** A character whose end is missing is one U+FFFD. *)
Lemma lossy_cut : forall c k, scalar c -> (0 < k < length (encode c))%nat -> lossy (firstn k (encode c)) = replacement.
Proof.
  intros c k H K. unfold encode, scalar in *.
  destruct (Z.ltb_spec c 128); [cbn [length] in K; lia|].
  destruct (Z.ltb_spec c 2048).
  { cbn [length] in K. destruct k as [|[|k]]; try lia. cbn [firstn lossy].
    rewrite ifF by arith. rewrite ifT by arith. reflexivity. }
  destruct (Z.ltb_spec c 65536).
  { cbn [length] in K. destruct k as [|[|[|k]]]; try lia; cbn [firstn lossy];
    (rewrite ifF by arith); (rewrite ifF by arith); (rewrite ifT by arith); [reflexivity|]. rewrite ifT by arith2. reflexivity. }
  cbn [length] in K. destruct k as [|[|[|[|k]]]]; try lia; cbn [firstn lossy];
  (rewrite ifF by arith); (rewrite ifF by arith); (rewrite ifF by arith); (rewrite ifT by arith); [reflexivity| |];
  (rewrite ifT by arith2); [reflexivity|]. rewrite ifT by arith. reflexivity.
Qed.

(** Cutting a text at some byte: whole characters, and perhaps the beginning of one. *)
Lemma cut_text : forall cs n, Forall scalar cs ->
  exists k, (k <= length cs)%nat /\
    (firstn n (concat (map encode cs)) = concat (map encode (firstn k cs)) \/
     exists c j, nth_error cs k = Some c /\ (0 < j < length (encode c))%nat /\
       firstn n (concat (map encode cs)) = concat (map encode (firstn k cs)) ++ firstn j (encode c)).
Proof.
  induction cs as [|c cs IH]; intros n F.
  { exists 0%nat. split; [cbn; lia|]. left. cbn. apply firstn_nil. }
  inversion F; subst. cbn [map concat].
  destruct (Nat.lt_ge_cases n (length (encode c))) as [Hn|Hn].
  - exists 0%nat. split; [lia|]. cbn [firstn map concat app]. rewrite firstn_app.
    replace (n - length (encode c))%nat with 0%nat by lia. rewrite firstn_O, app_nil_r.
    destruct n as [|n]; [left; reflexivity|]. right. exists c, (S n). repeat split; [lia | exact Hn].
  - destruct (IH (n - length (encode c))%nat ltac:(assumption)) as [k [Hk D]].
    exists (S k). split; [cbn; lia|]. cbn [firstn map concat]. rewrite firstn_app, firstn_all2 by exact Hn.
    destruct D as [-> | [c' [j [N [J ->]]]]]; [left; reflexivity|]. right. exists c', j.
    split; [exact N|]. split; [exact J|]. rewrite app_assoc. reflexivity.
Qed.

Lemma replacement_len : forall n l, (length l <= n)%nat -> (length (lossy l) <= 3 * length l)%nat.
Proof.
  induction n as [|n IH]; intros l L.
  { destruct l; [cbn; lia | cbn [length] in L; lia]. }
  destruct l as [|a t]; [cbn; lia|]. cbn [length] in L. pose proof (IH t ltac:(lia)) as It. cbn [lossy length].
  destruct (a <? 128); [cbn [length]; lia|].
  assert (R : forall t', (length (lossy t') <= 3 * length t')%nat -> (length (replacement ++ lossy t') <= 3 + 3 * length t')%nat)
    by (intros t' H; rewrite app_length; cbn [length replacement]; lia).
  pose proof (R _ It) as Rt.
  destruct (within 194 a 223).
  { destruct t as [|b t]; [cbn; lia|]. cbn [length] in *. pose proof (IH t ltac:(lia)) as It'. destruct (cont b); [cbn [length]; lia | lia]. }
  destruct (within 224 a 239).
  { destruct t as [|b t]; [cbn; lia|]. cbn [length] in *. pose proof (IH t ltac:(lia)) as It'. pose proof (R _ It') as Rt'. destruct (second3 a b); [|lia].
    destruct t as [|c t]; [cbn; lia|]. cbn [length] in *. pose proof (IH t ltac:(lia)) as It''. destruct (cont c); [cbn [length]; lia | lia]. }
  destruct (within 240 a 244); [|lia].
  destruct t as [|b t]; [cbn; lia|]. cbn [length] in *. pose proof (IH t ltac:(lia)) as It'. pose proof (R _ It') as Rt'. destruct (second4 a b); [|lia].
  destruct t as [|c t]; [cbn; lia|]. cbn [length] in *. pose proof (IH t ltac:(lia)) as It''. pose proof (R _ It'') as Rt''. destruct (cont c); [|lia].
  destruct t as [|d t]; [cbn; lia|]. cbn [length] in *. pose proof (IH t ltac:(lia)) as It3. destruct (cont d); [cbn [length]; lia | lia].
Qed.
