(** OBDecide.v -- a boolean check of [valid_history], used only to show that
    concrete histories meet the hypotheses of the property theorems. *)
From Coq Require Import ZArith List Lia Bool.
From Verif Require Import Base OBTypes OBSpec.
Import ListNotations.
Open Scope Z_scope.

Definition i64b (x : Z) := (i64_min <=? x) && (x <=? i64_max).
Definition u64b (x : Z) := (0 <=? x) && (x <? two64).
Definition memb (x : Z) (l : list Z) := existsb (fun y => y =? x) l.
Fixpoint nodupb (l : list Z) : bool := match l with [] => true | x :: t => negb (memb x t) && nodupb t end.

Definition freshb (mk : market) id s p q :=
  negb (memb id (ids mk)) && (0 <? q) && i64b p && (side_qty s mk + q <? two64).
Definition not_extremeb (mk : market) s p :=
  match on_side (other s) mk with [] => negb (p =? extreme_price (other s)) | _ => true end.
Definition rows_okb s rows mk :=
  nodupb (rows_prices rows) && forallb (fun r => (0 <? sn_quantity r) && i64b (sn_price r)) rows &&
  (side_qty s mk + fold_right (fun r a => sn_quantity r + a) 0 rows <? two64).
Definition counter_okb c n (mk : market) :=
  forallb (fun o => r_id o <? c) mk && (0 <=? c) && (c + Z.of_nat n <? two64).
Definition one_per_levelb (mk : market) :=
  nodupb (map r_price (on_side Ask mk)) && nodupb (map r_price (on_side Bid mk)).

Definition validb (st : market * Z) (r : request) : bool :=
  let '(mk, c) := st in
  match r with
  | QAdd o => freshb mk (lo_id o) (lo_side o) (lo_price o) (lo_quantity o)
  | QLimit o => freshb mk (lo_id o) (lo_side o) (lo_price o) (lo_quantity o) && not_extremeb mk (lo_side o) (lo_price o)
  | QMarket o => side_eqb (mo_side o) Bid && u64b (mo_quantity o)
  | QCancel _ => true
  | QModify o => match lookup (mod_id o) mk with
                 | None => true
                 | Some x => (0 <? mod_quantity o) && i64b (mod_price o) &&
                             (side_qty (r_side x) mk + mod_quantity o <? two64) && not_extremeb mk (r_side x) (mod_price o)
                 end
  | QChangeQty id q => match lookup id mk with
                       | None => true
                       | Some x => (0 <? q) && (side_qty (r_side x) mk + q <? two64)
                       end
  | QRemove o => u64b (ra_quantity o)
  | QSnapshot asks bids => rows_okb Ask asks mk && rows_okb Bid bids mk && one_per_levelb mk &&
                           counter_okb c (length asks + length bids) mk
  | QDecompose asks bids => rows_okb Ask asks mk && rows_okb Bid bids mk && counter_okb c (length asks + length bids) mk
  end.
Fixpoint valid_historyb (st : market * Z) (rs : list request) : bool :=
  match rs with
  | [] => true
  | r :: t => validb st r && valid_historyb (fst (sp_step st r)) t
  end.

Lemma memb_In x l : memb x l = true <-> In x l.
Proof.
  unfold memb. rewrite existsb_exists. split.
  - intros (y & H & E). apply Z.eqb_eq in E. now subst.
  - intros H. exists x. split; [exact H|apply Z.eqb_refl].
Qed.
Lemma nodupb_ok l : nodupb l = true -> NoDup l.
Proof.
  induction l as [|x t IH]; simpl; intros H; [constructor|]. apply andb_true_iff in H as [H1 H2].
  constructor; [|auto]. intros Hi. apply memb_In in Hi. rewrite Hi in H1. discriminate.
Qed.
Lemma freshb_ok mk id s p q : freshb mk id s p q = true -> fresh_order mk id s p q.
Proof.
  unfold freshb, fresh_order, i64b, is_i64. rewrite !andb_true_iff, negb_true_iff. intros (((H1 & H2) & H3 & H4) & H5).
  split; [intros Hi; apply memb_In in Hi; congruence|]. lia.
Qed.
Lemma not_extremeb_ok mk s p : not_extremeb mk s p = true -> not_extreme mk s p.
Proof.
  unfold not_extremeb, not_extreme. destruct (on_side (other s) mk); [|discriminate].
  intros H _ ->. rewrite Z.eqb_refl in H. discriminate.
Qed.
Lemma rows_okb_ok s rows mk : rows_okb s rows mk = true -> rows_ok s rows mk.
Proof.
  unfold rows_okb, rows_ok. rewrite !andb_true_iff, forallb_forall. intros ((H1 & H2) & H3).
  split; [now apply nodupb_ok|]. split; [|lia]. apply Forall_forall. intros r Hr. specialize (H2 r Hr).
  unfold i64b in H2. unfold is_i64. lia.
Qed.
Lemma counter_okb_ok c n mk : counter_okb c n mk = true -> counter_ok c n mk.
Proof.
  unfold counter_okb, counter_ok. rewrite !andb_true_iff, forallb_forall. intros ((H1 & H2) & H3).
  split; [|lia]. apply Forall_forall. intros o Ho. specialize (H1 o Ho). lia.
Qed.
Lemma one_per_levelb_ok mk : one_per_levelb mk = true -> one_per_level mk.
Proof.
  unfold one_per_levelb, one_per_level. rewrite andb_true_iff. intros [H1 H2] s p.
  assert (H : nodupb (map r_price (on_side s mk)) = true) by (destruct s; assumption).
  apply nodupb_ok in H. unfold at_price. revert H. unfold on_side.
  assert (G : forall l, NoDup (map r_price (filter (fun o => side_eqb (r_side o) s) l)) ->
     (length (filter (fun o => side_eqb (r_side o) s && (r_price o =? p)%Z) l) <= 1)%nat /\
     (~ In p (map r_price (filter (fun o => side_eqb (r_side o) s) l)) ->
      filter (fun o => side_eqb (r_side o) s && (r_price o =? p)) l = [])).
  { induction l as [|o t IH]; simpl; [auto|]. destruct (side_eqb (r_side o) s); simpl; [|auto].
    intros Hn. inversion Hn as [|? ? Hn1 Hn2]; subst. destruct (IH Hn2) as [I1 I2].
    destruct (Z.eqb_spec (r_price o) p) as [E|E]; simpl.
    - rewrite I2 by now rewrite <- E. split; [simpl; lia|]. intros Hc. exfalso. apply Hc. now left.
    - split; [exact I1|]. intros Hc. apply I2. intros Hi. apply Hc. now right. }
  intros H. apply (G mk H).
Qed.
Lemma validb_ok st r : validb st r = true -> valid st r.
Proof.
  destruct st as [mk c]. destruct r; cbn [validb valid]; rewrite ?andb_true_iff.
  - apply freshb_ok.
  - intros [H1 H2]. split; [now apply freshb_ok|now apply not_extremeb_ok].
  - intros [H1 H2]. unfold u64b, is_u64 in *. split; [now destruct (mo_side o)|lia].
  - auto.
  - destruct (lookup (mod_id o) mk) as [x|]; [|discriminate]. rewrite !andb_true_iff. intros (((H1 & H2) & H3) & H4) y [= <-].
    unfold i64b in H2. unfold is_i64. split; [lia|]. split; [lia|]. split; [lia|]. now apply not_extremeb_ok.
  - destruct (lookup id mk) as [x|]; [|discriminate]. rewrite !andb_true_iff. intros (H1 & H2) y [= <-]. lia.
  - unfold u64b, is_u64. lia.
  - intros (((H1 & H2) & H3) & H4). split; [now apply rows_okb_ok|]. split; [now apply rows_okb_ok|].
    split; [now apply one_per_levelb_ok|now apply counter_okb_ok].
  - intros ((H1 & H2) & H3). split; [now apply rows_okb_ok|]. split; [now apply rows_okb_ok|now apply counter_okb_ok].
Qed.
Lemma valid_historyb_ok rs : forall st, valid_historyb st rs = true -> valid_history st rs.
Proof.
  induction rs as [|r t IH]; intros st; simpl; [auto|]. rewrite andb_true_iff. intros [H1 H2].
  split; [now apply validb_ok|auto].
Qed.
