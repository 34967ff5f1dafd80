(** QLoadProofs.v -- how loading runs. *)
From Coq Require Import ZArith Ascii String.
From Coq Require Import List Bool Lia Permutation.
From Flocq Require Import Core IEEE754.BinarySingleNaN.
From Verif Require Import Base FloatModel KrxModel QDateModel QInterpModel QDivModel QCurveModel QMoneyModel QBondModel QSwapModel QFutModel QInstModel QInstSpec QInstProps QMatchProps QVolModel QEngModel QLoadModel QLoadSpec.
Import ListNotations.
Open Scope Z_scope.

Lemma rbind_ok : forall A B (x : outcome (rresult A)) (f : A -> outcome (rresult B)) y, (let? a := x in f a) = Ret (ROk y) -> exists a, x = Ret (ROk a) /\ f a = Ret (ROk y).
Proof. intros A B [[a|]| |] f y H; try discriminate H. exists a. auto. Qed.
Lemma rbind_err : forall A B (x : outcome (rresult A)) (f : A -> outcome (rresult B)), (let? a := x in f a) = Ret RErr -> x = Ret RErr \/ exists a, x = Ret (ROk a) /\ f a = Ret RErr.
Proof. intros A B [[a|]| |] f H; try discriminate H; eauto. Qed.
Lemma rbind_panic : forall A B (x : outcome (rresult A)) (f : A -> outcome (rresult B)), (let? a := x in f a) = Panic -> x = Panic \/ exists a, x = Ret (ROk a) /\ f a = Panic.
Proof. intros A B [[a|]| |] f H; try discriminate H; eauto. Qed.

Lemma entries_ok : forall K V (eqb : K -> K -> bool), decides eqb -> forall (f : K -> outcome (rresult V)) ks l, entries f ks = Ret (ROk l) ->
  map fst l = ks /\ (forall k v, entry_at eqb l k = Some v -> In k ks /\ f k = Ret (ROk v)) /\ (forall k, In k ks -> exists v, entry_at eqb l k = Some v) /\ forall k v, In k ks -> entry_at eqb l k = Some v <-> f k = Ret (ROk v).
Proof.
  intros K V eqb D f ks. unfold entries. induction ks as [|k ks IH]; cbn [map_res]; intros l H.
  - injection H as <-. split; [reflexivity|]. split; [intros k v Q; discriminate Q|]. split; [intros k []|intros k v []].
  - apply rbind_ok in H. destruct H as (x & E & H). apply rbind_ok in E. destruct E as (v & E & Q). injection Q as <-. apply rbind_ok in H. destruct H as (l' & H & Q). injection Q as <-.
    destruct (IH l' H) as (A & B & C & F). assert (R : forall k0 w, entry_at eqb ((k, v) :: l') k0 = Some w -> In k0 (k :: ks) /\ f k0 = Ret (ROk w)).
    { intros k0 w. cbn [entry_at]. destruct (eqb k0 k) eqn:S; [apply D in S; subst k0; intro Q; injection Q as <-; split; [left; reflexivity|exact E]|]. intro Q. destruct (B k0 w Q). split; [right; assumption|assumption]. }
    assert (T : forall k0, In k0 (k :: ks) -> exists w, entry_at eqb ((k, v) :: l') k0 = Some w).
    { intros k0 I. cbn [entry_at]. destruct (eqb k0 k) eqn:S; [eexists; reflexivity|]. destruct I as [<-|I]; [assert (W : eqb k k = true) by (apply D; reflexivity); congruence|]. exact (C k0 I). }
    split; [cbn [map fst]; congruence|]. split; [exact R|]. split; [exact T|]. intros k0 w I. split; [intro Q; apply R in Q; tauto|]. intro Q. destruct (T k0 I) as [w' W]. destruct (R k0 w' W) as [_ W']. congruence.
Qed.
Lemma entries_err : forall K V (f : K -> outcome (rresult V)) ks, entries f ks = Ret RErr -> exists k, In k ks /\ f k = Ret RErr.
Proof.
  intros K V f ks. unfold entries. induction ks as [|k ks IH]; cbn [map_res]; intro H; [discriminate H|].
  apply rbind_err in H. destruct H as [H|(x & E & H)].
  - apply rbind_err in H. destruct H as [H|(v & _ & H)]; [|discriminate H]. exists k. split; [left; reflexivity|exact H].
  - apply rbind_err in H. destruct H as [H|(v & _ & H)]; [|discriminate H]. destruct (IH H) as (k' & I & Q). exists k'. split; [right; exact I|exact Q].
Qed.
Lemma entries_panic : forall K V (f : K -> outcome (rresult V)) ks, entries f ks = Panic -> exists k, In k ks /\ f k = Panic.
Proof.
  intros K V f ks. unfold entries. induction ks as [|k ks IH]; cbn [map_res]; intro H; [discriminate H|].
  apply rbind_panic in H. destruct H as [H|(x & E & H)].
  - apply rbind_panic in H. destruct H as [H|(v & _ & H)]; [|discriminate H]. exists k. split; [left; reflexivity|exact H].
  - apply rbind_panic in H. destruct H as [H|(v & _ & H)]; [|discriminate H]. destruct (IH H) as (k' & I & Q). exists k'. split; [right; exact I|exact Q].
Qed.

(** the place of a key among entries *)
Lemma place_at : forall K V (eqb : K -> K -> bool) (l : list (K * V)) k, match place eqb l k with Some j => entry_at eqb l k = option_map snd (nth_error l j) /\ (j < List.length l)%nat | None => entry_at eqb l k = None end.
Proof.
  intros K V eqb l k. induction l as [|[k' v] l IH]; cbn [place entry_at]; [reflexivity|]. destruct (eqb k k'); [cbn; split; [reflexivity|lia]|].
  destruct (place eqb l k) as [j|]; cbn [option_map nth_error List.length]; [destruct IH; split; [assumption|lia]|exact IH].
Qed.
Lemma place_key : forall K V (eqb : K -> K -> bool), decides eqb -> forall (l : list (K * V)) k j, place eqb l k = Some j -> exists v, nth_error l j = Some (k, v).
Proof.
  intros K V eqb D l k. induction l as [|[k' v] l IH]; cbn [place]; intros j H; [discriminate H|]. destruct (eqb k k') eqn:S; [apply D in S; subst k'; injection H as <-; exists v; reflexivity|].
  destruct (place eqb l k) as [j'|]; [|discriminate H]. injection H as <-. exact (IH j' eq_refl).
Qed.
Lemma place_inj : forall K V (eqb : K -> K -> bool), decides eqb -> forall (l : list (K * V)) k k' j, place eqb l k = Some j -> place eqb l k' = Some j -> k = k'.
Proof. intros K V eqb D l k k' j A B. destruct (place_key K V eqb D l k j A) as [v A']. destruct (place_key K V eqb D l k' j B) as [w B']. congruence. Qed.
Lemma place_some : forall K V (eqb : K -> K -> bool) (l : list (K * V)) k v, entry_at eqb l k = Some v -> exists j, place eqb l k = Some j /\ option_map snd (nth_error l j) = Some v.
Proof. intros K V eqb l k v H. pose proof (place_at K V eqb l k) as P. destruct (place eqb l k) as [j|]; [|congruence]. destruct P as [P _]. exists j. split; [reflexivity|congruence]. Qed.
Lemma entry_in : forall K V (eqb : K -> K -> bool), decides eqb -> forall (l : list (K * V)) k v, entry_at eqb l k = Some v -> In (k, v) l.
Proof.
  intros K V eqb D l k v. induction l as [|[k' w] l IH]; cbn [entry_at]; intro H; [discriminate H|]. destruct (eqb k k') eqn:S; [apply D in S; subst k'; injection H as <-; left; reflexivity|right; auto].
Qed.
Lemma entry_none : forall K V (eqb : K -> K -> bool), decides eqb -> forall (l : list (K * V)) k, entry_at eqb l k = None <-> ~ In k (map fst l).
Proof.
  intros K V eqb D l k. induction l as [|[k' w] l IH]; cbn [entry_at map fst In]; [split; [auto|reflexivity]|]. destruct (eqb k k') eqn:S.
  - apply D in S. subst k'. split; [intro Q; discriminate Q|intro Q; exfalso; apply Q; left; reflexivity].
  - rewrite IH. split; [intros N [->|Q]; [assert (W : eqb k k = true) by (apply D; reflexivity); congruence|auto]|intros N Q; apply N; right; exact Q].
Qed.

(** dividends *)
Lemma divs_ok : forall eval d us l, make_dividends eval d us = Ret (ROk l) -> NoDup us ->
  NoDup (map fst l) /\ forall u, (forall x, entry_at String.eqb l u = Some x <-> In u us /\ div_from eval d u x) /\ (entry_at String.eqb l u = None <-> ~ In u us \/ da_div d u = None).
Proof.
  intros eval d us. induction us as [|u us IH]; cbn [make_dividends]; intros l H N.
  - injection H as <-. split; [constructor|]. intro u. cbn [entry_at]. split; [intro x; split; [intro Q; discriminate Q|intros [[] _]]|split; [intro Q; left; intros []|reflexivity]].
  - inversion N as [|u' us' NI ND]; subst u' us'. destruct (da_div d u) as [v|] eqn:DV.
    + apply rbind_ok in H. destruct H as (x & E & H). apply rbind_ok in H. destruct H as (l' & H & Q). injection Q as <-. destruct (IH l' H ND) as [A B].
      assert (K : forall w y, In (w, y) l' -> In w us). { intros w y I. destruct (entry_at String.eqb l' w) as [z|] eqn:Z; [apply (proj1 (B w)) in Z; tauto|]. exfalso. apply (entry_none _ _ _ string_decides) in Z. apply Z. apply in_map_iff. exists (w, y). auto. }
      split; [cbn [map fst]; constructor; [|exact A]; intro I; apply in_map_iff in I; destruct I as ([w y] & Q & I); cbn [fst] in Q; subst w; apply K in I; contradiction|].
      unfold make_dividend in E. destruct (da_stock d u) as [spot|] eqn:SP; [|discriminate E].
      intro w. cbn [entry_at In]. destruct (String.eqb_spec w u) as [->|NE].
      * split.
        -- intro y. split; [intro Q; injection Q as <-; split; [left; reflexivity|exists v, spot; auto]|]. intros (_ & v' & s' & V & S & Q). congruence.
        -- split; [intro Q; discriminate Q|]. intros [Q|Q]; [exfalso; apply Q; left; reflexivity|congruence].
      * destruct (B w) as [B1 B2]. split.
        -- intro y. rewrite B1. split; [intros [I Q]; auto|intros [[Q|I] Q']; [congruence|auto]].
        -- rewrite B2. split; [intros [Q|Q]; [left; intros [W|W]; [congruence|auto]|right; exact Q]|intros [Q|Q]; [left; intro W; apply Q; right; exact W|right; exact Q]].
    + destruct (IH l H ND) as [A B]. split; [exact A|]. intro w. destruct (B w) as [B1 B2]. cbn [In]. split.
      * intro y. rewrite B1. split; [intros [I Q]; auto|intros [[<-|I] Q]; [destruct Q as (v & s & V & _); congruence|auto]].
      * rewrite B2. split; [intros [Q|Q]; [|right; exact Q]|intros [Q|Q]; [left; intro W; apply Q; right; exact W|right; exact Q]].
        destruct (string_dec u w) as [->|NE]; [right; exact DV|left; intros [W|W]; auto].
Qed.
Lemma divs_err : forall eval d us, make_dividends eval d us = Ret RErr -> exists u v, In u us /\ da_div d u = Some v /\ (da_stock d u = None \/ exists s, da_stock d u = Some s /\ dividend_new eval v s = Ret RErr).
Proof.
  intros eval d us. induction us as [|u us IH]; cbn [make_dividends]; intro H; [discriminate H|]. destruct (da_div d u) as [v|] eqn:DV.
  - apply rbind_err in H. destruct H as [H|(x & _ & H)].
    + exists u, v. split; [left; reflexivity|]. split; [exact DV|]. unfold make_dividend in H. destruct (da_stock d u) as [s|]; [right; exists s; auto|left; reflexivity].
    + apply rbind_err in H. destruct H as [H|(y & _ & H)]; [|discriminate H]. destruct (IH H) as (w & v' & I & Q). exists w, v'. split; [right; exact I|exact Q].
  - destruct (IH H) as (w & v' & I & Q). exists w, v'. split; [right; exact I|exact Q].
Qed.
