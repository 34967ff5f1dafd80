(** OBBase.v -- facts about the sorted association list, queues and sums. *)
From Coq Require Import ZArith List Lia Sorted Bool Permutation.
From stdpp Require Import base gmap.
From Verif Require Import Base OBTypes OBModel.
Import ListNotations.
Open Scope Z_scope.

Definition keys {V} (m : list (Z * V)) : list Z := map fst m.
Definition sorted {V} (m : list (Z * V)) : Prop := StronglySorted Z.lt (keys m).

Section bt.
  Context {V : Type}.
  Implicit Types (m : list (Z * V)) (k : Z) (v : V).

  Lemma bt_get_In m k v : bt_get k m = Some v -> In (k, v) m.
  Proof.
    induction m as [|[k' v'] t IH]; simpl; [discriminate|].
    destruct (Z.eqb_spec k k') as [->|]; intros H.
    - injection H as ->. now left.
    - right. auto.
  Qed.

  Lemma bt_get_None_keys m k : bt_get k m = None <-> ~ In k (keys m).
  Proof.
    induction m as [|[k' v'] t IH]; simpl; [tauto|].
    destruct (Z.eqb_spec k k') as [->|].
    - split; [discriminate|]. intros H. exfalso. apply H. now left.
    - rewrite IH. split; intros H; [intros [E|E]; [congruence|auto]|]. intros E; apply H; now right.
  Qed.

  Lemma bt_In_get m k v : sorted m -> In (k, v) m -> bt_get k m = Some v.
  Proof.
    unfold sorted, keys. induction m as [|[k' v'] t IH]; simpl; [tauto|].
    intros Hs [H|H].
    - injection H as -> ->. now rewrite Z.eqb_refl.
    - inversion Hs as [|? ? Hs' Hf]; subst.
      destruct (Z.eqb_spec k k') as [->|]; [|auto].
      rewrite List.Forall_forall in Hf. specialize (Hf k').
      assert (k' < k')%Z; [|lia]. apply Hf. apply (in_map fst) in H. exact H.
  Qed.

  Lemma bt_get_insert m k v k' :
    bt_get k' (bt_insert k v m) = if k' =? k then Some v else bt_get k' m.
  Proof.
    induction m as [|[k0 v0] t IH]; simpl; [reflexivity|].
    destruct (Z.ltb_spec k k0); simpl; [reflexivity|].
    destruct (Z.eqb_spec k k0); simpl.
    - subst. destruct (Z.eqb_spec k' k0); reflexivity.
    - rewrite IH. destruct (Z.eqb_spec k' k0), (Z.eqb_spec k' k); try reflexivity. lia.
  Qed.

  Lemma keys_insert_In m k v x : In x (keys (bt_insert k v m)) <-> x = k \/ In x (keys m).
  Proof.
    unfold keys. induction m as [|[k0 v0] t IH]; simpl; [intuition|].
    destruct (Z.ltb_spec k k0); simpl; [intuition|].
    destruct (Z.eqb_spec k k0); simpl; [subst; intuition|].
    rewrite IH. intuition.
  Qed.

  Lemma sorted_insert m k v : sorted m -> sorted (bt_insert k v m).
  Proof.
    unfold sorted. induction m as [|[k0 v0] t IH]; simpl; intros Hs.
    - repeat constructor.
    - inversion Hs as [|? ? Hs' Hf]; subst. fold (keys t) in *.
      destruct (Z.ltb_spec k k0); simpl.
      + constructor; [exact Hs|]. constructor; [lia|].
        eapply Forall_impl; [exact Hf|]. simpl. intros; lia.
      + destruct (Z.eqb_spec k k0); simpl.
        * subst. constructor; assumption.
        * constructor; [now apply IH|]. apply List.Forall_forall. intros x Hx.
          apply keys_insert_In in Hx. destruct Hx as [->|Hx]; [lia|].
          rewrite List.Forall_forall in Hf. auto.
  Qed.

  Lemma bt_get_remove m k k' : sorted m ->
    bt_get k' (bt_remove k m) = if k' =? k then None else bt_get k' m.
  Proof.
    unfold sorted. induction m as [|[k0 v0] t IH]; simpl; intros Hs; [now destruct (k' =? k)|].
    inversion Hs as [|? ? Hs' Hf]; subst. fold (keys t) in *.
    destruct (Z.eqb_spec k k0); simpl.
    - subst. destruct (Z.eqb_spec k' k0); [|reflexivity]. subst.
      apply bt_get_None_keys. intros Hin. rewrite List.Forall_forall in Hf.
      specialize (Hf _ Hin). lia.
    - rewrite IH by assumption. destruct (Z.eqb_spec k' k0), (Z.eqb_spec k' k); try reflexivity. lia.
  Qed.

  Lemma remove_incl m k x : In x (bt_remove k m) -> In x m.
  Proof.
    induction m as [|[k0 v0] t IH]; simpl; [tauto|].
    destruct (Z.eqb_spec k k0); simpl; intuition.
  Qed.

  Lemma keys_remove_In m k x : sorted m ->
    In x (keys (bt_remove k m)) <-> x <> k /\ In x (keys m).
  Proof.
    intros Hs. pose proof (bt_get_remove m k x Hs) as H.
    destruct (Z.eqb_spec x k) as [->|Hne].
    - apply bt_get_None_keys in H. tauto.
    - assert (Hi : bt_get x (bt_remove k m) = None <-> bt_get x m = None) by now rewrite H.
      rewrite !bt_get_None_keys in Hi.
      destruct (in_dec Z.eq_dec x (keys (bt_remove k m))), (in_dec Z.eq_dec x (keys m)); tauto.
  Qed.

  Lemma sorted_remove m k : sorted m -> sorted (bt_remove k m).
  Proof.
    unfold sorted. induction m as [|[k0 v0] t IH]; simpl; intros Hs; [constructor|].
    inversion Hs as [|? ? Hs' Hf]; subst. fold (keys t) in *.
    destruct (Z.eqb_spec k k0); simpl; [assumption|].
    constructor; [now apply IH|]. apply List.Forall_forall. intros x Hx.
    rewrite List.Forall_forall in Hf. apply Hf.
    unfold keys in *. apply in_map_iff in Hx as ([a b] & <- & Hx).
    apply remove_incl in Hx. apply in_map_iff. eauto.
  Qed.

  Lemma In_insert m k v x : In x (bt_insert k v m) -> x = (k, v) \/ In x m.
  Proof.
    induction m as [|[k0 v0] t IH]; simpl; [intuition|].
    destruct (k <? k0); simpl; [intuition|].
    destruct (k =? k0); simpl; intuition.
  Qed.

  Lemma Forall_insert (P : Z * V -> Prop) m k v : P (k, v) -> Forall P m -> Forall P (bt_insert k v m).
  Proof.
    rewrite !List.Forall_forall. intros H1 H2 x Hx. apply In_insert in Hx as [->|Hx]; auto.
  Qed.
  Lemma Forall_remove (P : Z * V -> Prop) m k : Forall P m -> Forall P (bt_remove k m).
  Proof. rewrite !List.Forall_forall. intros H2 x Hx. apply remove_incl in Hx. auto. Qed.

  Lemma insert_same m k v : sorted m -> bt_get k m = Some v -> bt_insert k v m = m.
  Proof.
    unfold sorted. induction m as [|[k0 v0] t IH]; simpl; intros Hs; [discriminate|].
    inversion Hs as [|? ? Hs' Hf]; subst. fold (keys t) in *.
    destruct (Z.eqb_spec k k0).
    - intros E; injection E as ->. subst. destruct (Z.ltb_spec k0 k0); [lia|reflexivity].
    - intros E. destruct (Z.ltb_spec k k0).
      + exfalso. apply bt_get_In in E. apply (in_map fst) in E. simpl in E.
        rewrite List.Forall_forall in Hf. specialize (Hf _ E). lia.
      + now rewrite IH.
  Qed.

  Lemma remove_insert m k v : bt_get k m <> None -> sorted m -> bt_remove k (bt_insert k v m) = bt_remove k m.
  Proof.
    unfold sorted. induction m as [|[k0 v0] t IH]; simpl; intros Hn Hs; [congruence|].
    inversion Hs as [|? ? Hs' Hf]; subst. fold (keys t) in *.
    destruct (Z.eqb_spec k k0).
    - subst. destruct (Z.ltb_spec k0 k0); [lia|]. simpl. now rewrite Z.eqb_refl.
    - destruct (Z.ltb_spec k k0).
      + exfalso. destruct (bt_get k t) eqn:E; [|congruence].
        apply bt_get_In in E. apply (in_map fst) in E. simpl in E.
        rewrite List.Forall_forall in Hf. specialize (Hf _ E). lia.
      + simpl. destruct (Z.eqb_spec k k0); [lia|]. now rewrite IH.
  Qed.

  (** sums *)
  Variable w : V -> Z.
  Definition sumv m : Z := fold_right (fun kv a => w (snd kv) + a) 0 m.

  Lemma sumv_app a b : sumv (a ++ b) = sumv a + sumv b.
  Proof. unfold sumv. induction a as [|x a IH]; simpl; [lia|]. rewrite IH. lia. Qed.

  Lemma sumv_rev a : sumv (rev a) = sumv a.
  Proof. induction a as [|x a IH]; simpl; [reflexivity|]. rewrite sumv_app, IH. unfold sumv. simpl. lia. Qed.

  Definition wget k m : Z := match bt_get k m with Some v => w v | None => 0 end.

  Lemma sumv_insert m k v : sorted m -> sumv (bt_insert k v m) = sumv m - wget k m + w v.
  Proof.
    unfold sorted, wget. induction m as [|[k0 v0] t IH]; simpl; intros Hs; [unfold sumv; simpl; lia|].
    inversion Hs as [|? ? Hs' Hf]; subst. fold (keys t) in *.
    destruct (Z.ltb_spec k k0).
    - destruct (Z.eqb_spec k k0); [lia|].
      assert (E : bt_get k t = None).
      { apply bt_get_None_keys. intros Hin. rewrite List.Forall_forall in Hf. specialize (Hf _ Hin). lia. }
      rewrite E. unfold sumv. simpl. lia.
    - destruct (Z.eqb_spec k k0); simpl.
      + unfold sumv. simpl. lia.
      + change (w v0 + sumv (bt_insert k v t) = w v0 + sumv t -
          match bt_get k t with Some v1 => w v1 | None => 0 end + w v). rewrite IH by assumption. lia.
  Qed.

  Lemma sumv_remove m k : sorted m -> sumv (bt_remove k m) = sumv m - wget k m.
  Proof.
    unfold sorted, wget. induction m as [|[k0 v0] t IH]; simpl; intros Hs; [unfold sumv; simpl; lia|].
    inversion Hs as [|? ? Hs' Hf]; subst. fold (keys t) in *.
    destruct (Z.eqb_spec k k0); simpl; [unfold sumv; simpl; lia|].
    change (w v0 + sumv (bt_remove k t) = w v0 + sumv t -
       match bt_get k t with Some v => w v | None => 0 end). rewrite IH by assumption. lia.
  Qed.

  Lemma sumv_nonneg m : Forall (fun kv => 0 <= w (snd kv)) m -> 0 <= sumv m.
  Proof. induction 1; unfold sumv in *; simpl in *; lia. Qed.

  Lemma sumv_ge m k v : Forall (fun kv => 0 <= w (snd kv)) m -> bt_get k m = Some v -> w v <= sumv m.
  Proof.
    induction m as [|[k0 v0] t IH]; simpl; [discriminate|]. intros Hf.
    inversion Hf as [|? ? H1 H2]; subst. pose proof (sumv_nonneg t H2) as Hn. simpl in H1.
    unfold sumv in *. simpl. destruct (k =? k0); intros E; [injection E as ->; lia|].
    specialize (IH H2 E). lia.
  Qed.
End bt.

(** Two sorted maps with the same lookups are the same list. *)
Lemma sorted_ext {V} (a b : list (Z * V)) :
  sorted a -> sorted b -> (forall k, bt_get k a = bt_get k b) -> a = b.
Proof.
  unfold sorted. revert b. induction a as [|[ka va] ta IH]; intros b Ha Hb Hg.
  - destruct b as [|[kb vb] tb]; [reflexivity|]. specialize (Hg kb). simpl in Hg.
    rewrite Z.eqb_refl in Hg. discriminate.
  - destruct b as [|[kb vb] tb].
    + specialize (Hg ka). simpl in Hg. rewrite Z.eqb_refl in Hg. discriminate.
    + inversion Ha as [|? ? Ha' Hfa]; inversion Hb as [|? ? Hb' Hfb]; subst.
      fold (keys ta) in *. fold (keys tb) in *. rewrite List.Forall_forall in Hfa, Hfb.
      assert (ka = kb) as ->.
      { destruct (Z.lt_trichotomy ka kb) as [H|[H|H]]; [|exact H|].
        - pose proof (Hg ka) as G. simpl in G. rewrite Z.eqb_refl in G.
          destruct (Z.eqb_spec ka kb); [lia|].
          symmetry in G. apply bt_get_In, (in_map fst) in G. specialize (Hfb _ G). simpl in Hfb. lia.
        - pose proof (Hg kb) as G. simpl in G. rewrite Z.eqb_refl in G.
          destruct (Z.eqb_spec kb ka); [lia|].
          apply bt_get_In, (in_map fst) in G. specialize (Hfa _ G). simpl in Hfa. lia. }
      f_equal.
      * pose proof (Hg kb) as G. simpl in G. rewrite Z.eqb_refl in G. now injection G as ->.
      * apply IH; auto. intros k. pose proof (Hg k) as G. simpl in G.
        destruct (Z.eqb_spec k kb) as [Ek|]; [rewrite Ek in *|exact G].
        assert (forall (t : list (Z * V)), (forall x, In x (keys t) -> kb < x) -> bt_get kb t = None) as N.
        { intros t Ht. apply bt_get_None_keys. intros Hin. specialize (Ht _ Hin). lia. }
        rewrite !N; auto.
Qed.

(** Quantities in a queue. *)
Definition sumq (q : list (Z * Z)) : Z := fold_right (fun x a => snd x + a) 0 q.

Lemma sumq_app a b : sumq (a ++ b) = sumq a + sumq b.
Proof. unfold sumq. induction a as [|x a IH]; simpl; [lia|]. rewrite IH. lia. Qed.
Lemma sumq_rev a : sumq (rev a) = sumq a.
Proof. induction a as [|x a IH]; simpl; [reflexivity|]. rewrite sumq_app, IH. unfold sumq. simpl. lia. Qed.

Definition posq (q : list (Z * Z)) : Prop := Forall (fun x => 0 < snd x) q.
Lemma sumq_pos q : posq q -> 0 <= sumq q.
Proof. unfold posq, sumq. induction 1; simpl in *; lia. Qed.
Lemma sumq_zero q : posq q -> sumq q = 0 -> q = [].
Proof.
  intros H. inversion H as [|x t Hx Ht]; [reflexivity|]; subst. intros E. pose proof (sumq_pos _ Ht).
  unfold sumq in *. simpl in *. lia.
Qed.
Lemma posq_app a b : posq (a ++ b) <-> posq a /\ posq b.
Proof. apply List.Forall_app. Qed.
