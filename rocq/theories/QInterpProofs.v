(** QInterpProofs.v -- lemmas about interpolators; the order of f32. *)
From Coq Require Import ZArith Arith List Bool Lia Reals Lra.
From Flocq Require Import Core IEEE754.BinarySingleNaN.
From Verif Require Import Base FloatModel FloatFacts KrxModel QFindModel QFindSpec QFindProofs QInterpModel QInterpSpec.
Import ListNotations.
Open Scope nat_scope.

Lemma map_res_pointwise : forall A B (f : A -> outcome (rresult B)) xs r, map_res f xs = Ret r -> pointwise f xs r.
Proof.
  intros A B f. induction xs as [|x xs IH]; intros r H; cbn [map_res] in H; [injection H as <-; constructor|].
  destruct (f x) as [[y|]| |] eqn:E; cbn [rbind] in H; try discriminate H.
  - destruct (map_res f xs) as [[ys|]| |] eqn:E'; cbn [rbind] in H; try discriminate H; injection H as <-.
    + constructor; [exact E|]. exact (IH (ROk ys) eq_refl).
    + apply Exists_cons_tl. exact (IH RErr eq_refl).
  - injection H as <-. apply Exists_cons_hd. exact E.
Qed.
Lemma map_res_total : forall A B (f : A -> outcome (rresult B)) xs, (forall x, In x xs -> exists r, f x = Ret r) -> exists r, map_res f xs = Ret r.
Proof.
  intros A B f. induction xs as [|x xs IH]; intro H; cbn [map_res]; [eauto|].
  destruct (H x (or_introl eq_refl)) as ([y|] & ->); cbn [rbind]; [|eauto].
  destruct (IH (fun z Hz => H z (or_intror Hz))) as ([ys|] & ->); cbn [rbind]; eauto.
Qed.
(** a loop over the points with an index for each: pointwise if each step is *)
Lemma map_res2_pointwise : forall A B C (g : A -> B -> outcome (rresult C)) (f : A -> outcome (rresult C)) (Q : A -> B -> Prop) xs is,
  Forall2 Q xs is -> (forall x i, In x xs -> Q x i -> g x i = f x /\ exists r, f x = Ret r) ->
  exists r, map_res2 g xs is = Ret r /\ pointwise f xs r.
Proof.
  intros A B C g f Q xs is F. induction F as [|x i xs is q F IH]; intro H; cbn [map_res2]; [eexists; split; [reflexivity|constructor]|].
  destruct (H x i (or_introl eq_refl) q) as (-> & ([y|] & E)); rewrite E; cbn [rbind].
  - destruct IH as ([ys|] & -> & P); [intros x' i' H1 H2; apply H; [right; exact H1|exact H2]| |]; cbn [rbind]; eexists; (split; [reflexivity|]).
    + constructor; [exact E|exact P].
    + apply Exists_cons_tl. exact P.
  - eexists. split; [reflexivity|]. apply Exists_cons_hd. exact E.
Qed.

(** ** is_ndarray_sorted *)
Section Sorted.
Context {T : Type} (cmp : T -> T -> option comparison).
Lemma sorted_from_iff : forall arr x, sorted_from cmp x arr = true <-> (forall i a b, nth_error (x :: arr) i = Some a -> nth_error (x :: arr) (i + 1) = Some b -> cmp a b <> Some Gt).
Proof.
  induction arr as [|y arr IH]; intro x; cbn [sorted_from].
  - split; [|reflexivity]. intros _ i a b _ Hb. destruct i; cbn in Hb; [discriminate Hb|]. destruct i; discriminate Hb.
  - unfold o_gt. destruct (cmp x y) as [[]|] eqn:E.
    3:{ split; [discriminate|]. intro H. exfalso. exact (H 0 x y eq_refl eq_refl E). }
    all: rewrite IH; split; intros H i a b Ha Hb; [destruct i as [|i]; [cbn in Ha, Hb; congruence|exact (H i a b Ha Hb)]|exact (H (S i) a b Ha Hb)].
Qed.
Variable P : T -> Prop.
Hypothesis HO : total_order cmp P.
Lemma adjacent_sorted : forall v, Forall P v -> (forall i a b, nth_error v i = Some a -> nth_error v (i + 1) = Some b -> cmp a b <> Some Gt) -> sorted cmp v.
Proof.
  intros v PV H i j x y L Hx Hy. revert y Hy. induction L as [|j L IH]; intros y Hy.
  - pose proof (P_at P v PV _ _ Hx) as Px. pose proof (P_at P v PV _ _ Hy) as Py. rewrite <- Nat.add_1_r in Hy. specialize (H i x y Hx Hy).
    destruct (proj1 HO x y Px Py) as (c & E & _). unfold le. rewrite E in *. destruct c; auto. congruence.
  - assert (j < length v) by (apply Nat.lt_le_trans with (S j); [lia|]; apply Nat.lt_le_incl, nth_error_Some; congruence).
    destruct (at_lt _ v j ltac:(assumption)) as (z & Hz & _).
    pose proof (P_at P v PV _ _ Hx) as Px. pose proof (P_at P v PV _ _ Hy) as Py. pose proof (P_at P v PV _ _ Hz) as Pz.
    apply (le_trans' cmp P HO x z y); try assumption; [exact (IH z Hz)|]. rewrite <- Nat.add_1_r in Hy. specialize (H j z y Hz Hy).
    destruct (proj1 HO z y Pz Py) as (c & E & _). unfold le. rewrite E in *. destruct c; auto. congruence.
Qed.
Lemma sorted_adjacent : forall v, Forall P v -> sorted cmp v -> forall i a b, nth_error v i = Some a -> nth_error v (i + 1) = Some b -> cmp a b <> Some Gt.
Proof. intros v PV H i a b Ha Hb. destruct (H i (i + 1) a b ltac:(lia) Ha Hb) as [E|E]; rewrite E; discriminate. Qed.

(** the place of a value inside the range is its interval *)
Lemma place_interval : forall v x i a b, Forall P v -> P x -> sorted cmp v -> nth_error v 0 = Some a -> nth_error v (length v - 1) = Some b ->
  le cmp a x -> place cmp v x i -> interval cmp v x i.
Proof.
  intros v x i a b PV Px SV Ha Hb LA (Li & F1 & F2 & F3). pose proof (P_at P v PV _ _ Hb) as Pb.
  destruct (le_or_lt cmp P HO b x Pb Px) as [LB|LB].
  - rewrite (F2 b Hb LB). exists b. split; [exact Hb|]. split; [exact LB|]. intros c Hc.
    assert (length v - 1 + 1 < length v) by (apply nth_error_Some; congruence). lia.
  - destruct (F3 a b Ha Hb LA LB) as (y & z & Hy & Hz & Y & Z). exists y. split; [exact Hy|]. split; [exact Y|]. intros c Hc. congruence.
Qed.
End Sorted.

(** ** f32 *)
Lemma fin_compare : forall x y : f32, is_finite x = true -> is_finite y = true -> fcmp x y = Some (Rcompare (B2R x) (B2R y)).
Proof. intros x y Fx Fy. apply Bcompare_correct; assumption. Qed.
Lemma fcmp_cases : forall x y : f32, number x -> number y ->
  (is_finite x = true /\ is_finite y = true /\ fcmp x y = Some (Rcompare (B2R x) (B2R y))) \/
  (is_finite x = false \/ is_finite y = false).
Proof. intros x y _ _. destruct (is_finite x) eqn:Fx; [|auto]. destruct (is_finite y) eqn:Fy; [|auto]. left. auto using fin_compare. Qed.
Lemma fcmp_swap : forall x y : f32, number x -> number y -> exists c, fcmp x y = Some c /\ fcmp y x = Some (CompOpp c).
Proof.
  intros x y Nx Ny. destruct (fcmp_cases x y Nx Ny) as [(Fx & Fy & E)|D].
  - rewrite E, (fin_compare y x Fy Fx). eexists. split; [reflexivity|]. f_equal. apply Rcompare_sym.
  - unfold number in *. destruct x as [[]|[]| |[] ? ? ?], y as [[]|[]| |[] ? ? ?]; cbn in *; try discriminate; destruct D as [D|D]; try discriminate D;
      eexists; (split; [reflexivity|reflexivity]).
Qed.
Lemma fle_finite : forall x y : f32, is_finite x = true -> is_finite y = true -> (le fcmp x y <-> (B2R x <= B2R y)%R).
Proof.
  intros x y Fx Fy. unfold le. rewrite (fin_compare x y Fx Fy). destruct (Rcompare_spec (B2R x) (B2R y)); split; intro Q; try lra; auto.
  destruct Q as [Q|Q]; discriminate Q.
Qed.
Lemma flt_finite : forall x y : f32, is_finite x = true -> is_finite y = true -> (lt fcmp x y <-> (B2R x < B2R y)%R).
Proof.
  intros x y Fx Fy. unfold lt. rewrite (fin_compare x y Fx Fy). destruct (Rcompare_spec (B2R x) (B2R y)); split; intro Q; try lra; auto; discriminate Q.
Qed.
Lemma f_order : total_order fcmp number.
Proof.
  split; [exact fcmp_swap|]. intros x y z Nx Ny Nz A B.
  destruct (is_finite x) eqn:Fx, (is_finite y) eqn:Fy, (is_finite z) eqn:Fz.
  1:{ apply fle_finite in A; try assumption. apply fle_finite in B; try assumption. apply fle_finite; try assumption. lra. }
  all: unfold number, le in *; destruct x as [[]|[]| |[] ? ? ?]; cbn in Fx, Nx; try discriminate;
    destruct y as [[]|[]| |[] ? ? ?]; cbn in Fy, Ny; try discriminate; destruct z as [[]|[]| |[] ? ? ?]; cbn in Fz, Nz; try discriminate;
    cbn in A, B |- *; auto; destruct A as [A|A]; try discriminate A; destruct B as [B|B]; discriminate B.
Qed.
Lemma finite_number : forall x : f32, finite x -> number x.
Proof. intros x F. unfold finite, number in *. destruct x; cbn in *; congruence. Qed.
