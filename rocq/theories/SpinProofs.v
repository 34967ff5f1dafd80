(** SpinProofs.v -- invariant of the spin queue machine under the contract. *)
From Coq Require Import ZArith List Bool Lia.
From Verif Require Import Base SpinModel SpinSpec.
Import ListNotations.
Open Scope Z_scope.

(** ** Bits *)

Lemma bit_shiftl1 : forall k j, 0 <= k -> 0 <= j ->
  Z.testbit (Z.shiftl 1 k) j = (j =? k).
Proof.
  intros k j Hk Hj. rewrite Z.shiftl_1_l.
  destruct (Z.eqb_spec j k) as [->|N].
  - apply Z.pow2_bits_true; lia.
  - apply Z.pow2_bits_false; lia.
Qed.

Lemma worker_new_spec : forall m id w, 0 <= id -> worker_new m id = Ret (ROk w) ->
  id <= 15 /\ wid w = id /\ wid_bit w = 2 ^ id /\ wid_bit_neg w = 65535 - 2 ^ id.
Proof.
  intros m id w H0 H. unfold worker_new, id_bound in H.
  destruct (Z.ltb_spec 15 id) as [L|L]; [discriminate|].
  unfold shl1_16 in H. destruct (Z.ltb_spec id 16) as [L'|L']; [|lia].
  cbn [obind] in H. inversion H; subst; cbn. unfold not16.
  rewrite Z.shiftl_1_l. repeat split; lia.
Qed.

Lemma not16_bits : forall k j, 0 <= k <= 15 -> 0 <= j <= 15 ->
  Z.testbit (65535 - 2 ^ k) j = negb (j =? k).
Proof.
  intros k j Hk Hj.
  assert (Hl : Z.ldiff 65535 (2 ^ k) = 65535 - 2 ^ k).
  { symmetry. apply Z.sub_nocarry_ldiff. apply Z.bits_inj'. intros n Hn.
    rewrite Z.ldiff_spec, Z.bits_0.
    destruct (Z.eq_dec n k) as [->|N].
    - rewrite Z.pow2_bits_true by lia. change 65535 with (Z.ones 16).
      rewrite Z.ones_spec_low by lia. reflexivity.
    - rewrite Z.pow2_bits_false by lia. reflexivity. }
  rewrite <- Hl, Z.ldiff_spec. change 65535 with (Z.ones 16).
  rewrite Z.ones_spec_low by lia.
  destruct (Z.eqb_spec j k) as [->|N].
  - rewrite Z.pow2_bits_true by lia. reflexivity.
  - rewrite Z.pow2_bits_false by lia. reflexivity.
Qed.

(** A status value: only the sixteen low bits. *)
Definition is16 (v : Z) : Prop := 0 <= v /\ forall j, 16 <= j -> Z.testbit v j = false.

Lemma ready_to_work_bit : forall v w m id, is16 v -> 0 <= id -> worker_new m id = Ret (ROk w) ->
  ready_to_work v w = Z.testbit v (wid w).
Proof.
  intros v w m id [Hv _] H0 H. destruct (worker_new_spec _ _ _ H0 H) as (Hb & Hi & Hbit & _).
  unfold ready_to_work. rewrite Hbit, Hi.
  destruct (Z.testbit v id) eqn:E.
  - apply Z.ltb_lt.
    assert (0 <= Z.land v (2 ^ id)) by (apply Z.land_nonneg; left; lia).
    assert (Z.land v (2 ^ id) <> 0).
    { intro Z0. assert (Z.testbit (Z.land v (2 ^ id)) id = false) by (rewrite Z0; apply Z.bits_0).
      rewrite Z.land_spec, E, Z.pow2_bits_true in H2 by lia. discriminate. }
    lia.
  - apply Z.ltb_ge.
    assert (Z.land v (2 ^ id) = 0); [|lia].
    apply Z.bits_inj'. intros n Hn. rewrite Z.land_spec, Z.bits_0.
    destruct (Z.eq_dec n id) as [->|N]; [rewrite E; reflexivity|].
    rewrite Z.pow2_bits_false by lia. apply andb_false_r.
Qed.

Lemma work_done_bits : forall v w m id j, is16 v -> 0 <= id -> worker_new m id = Ret (ROk w) ->
  0 <= j -> Z.testbit (work_done_value v w) j = Z.testbit v j && negb (j =? wid w).
Proof.
  intros v w m id j [Hv Hh] H0 H Hj. destruct (worker_new_spec _ _ _ H0 H) as (Hb & Hi & _ & Hn).
  unfold work_done_value, work_done_mask. rewrite Hn, Hi, Z.land_spec.
  destruct (Z_le_gt_dec 16 j) as [L|L].
  - rewrite (Hh j L). reflexivity.
  - rewrite not16_bits by lia. reflexivity.
Qed.

Lemma work_done_is16 : forall v w m id, is16 v -> 0 <= id -> worker_new m id = Ret (ROk w) ->
  is16 (work_done_value v w).
Proof.
  intros v w m id H16 H0 H. split.
  - apply Z.land_nonneg. left. apply H16.
  - intros j Hj. rewrite (work_done_bits v w m id j) by (auto; lia).
    destruct H16 as [_ Hh]. rewrite Hh by lia. reflexivity.
Qed.

Lemma zero_of_bits : forall v, (forall j, 0 <= j -> Z.testbit v j = false) -> v = 0.
Proof. intros v H. apply Z.bits_inj'. intros n Hn. rewrite H by lia. symmetry. apply Z.bits_0. Qed.

(** ** Construction *)

Definition made_workers (ws : list worker_id) : Prop :=
  Forall (fun w => exists m id, 0 <= id /\ worker_new m id = Ret (ROk w)) ws.

Lemma made_range : forall ws, made_workers ws -> Forall (fun w => 0 <= wid w <= 15) ws.
Proof.
  intros ws H. eapply Forall_impl; [|exact H]. intros w (m & id & H0 & E).
  destruct (worker_new_spec _ _ _ H0 E) as (? & -> & _). lia.
Qed.

Lemma collect_ids_spec : forall ws seen, NoDup seen ->
  (NoDup (seen ++ map wid ws) -> collect_ids seen ws = ROk (seen ++ map wid ws)) /\
  (~ NoDup (seen ++ map wid ws) -> collect_ids seen ws = RErr).
Proof.
  induction ws as [|w ws IH]; intros seen Hs; cbn [collect_ids map].
  - rewrite app_nil_r. split; [reflexivity|tauto].
  - destruct (existsb (Z.eqb (wid w)) seen) eqn:E.
    + split; [|reflexivity]. intro Hn. exfalso.
      apply existsb_exists in E. destruct E as (x & Hx & Ex). apply Z.eqb_eq in Ex. subst x.
      apply NoDup_remove_2 in Hn. apply Hn. apply in_or_app. left; exact Hx.
    + assert (Hni : ~ In (wid w) seen).
      { intro Hi. assert (existsb (Z.eqb (wid w)) seen = true) as A.
        { apply existsb_exists. exists (wid w). split; [exact Hi|apply Z.eqb_refl]. }
        congruence. }
      assert (Hn' : NoDup (seen ++ [wid w])).
      { apply NoDup_Add with (a := wid w) (l := seen).
        - pose proof (Add_app (wid w) seen []) as HA. rewrite app_nil_r in HA. exact HA.
        - split; assumption. }
      specialize (IH (seen ++ [wid w]) Hn'). rewrite <- app_assoc in IH. exact IH.
Qed.

Lemma shl1_small : forall m i, 0 <= i <= 15 -> shl1_16 m i = Ret (2 ^ i).
Proof.
  intros m i H. unfold shl1_16. destruct (Z.ltb_spec i 16); [|lia]. rewrite Z.shiftl_1_l. reflexivity.
Qed.

Lemma fold_full_spec : forall m ids acc, Forall (fun i => 0 <= i <= 15) ids -> is16 acc ->
  exists full, fold_full m acc ids = Ret full /\ is16 full /\
    forall j, 0 <= j -> Z.testbit full j = Z.testbit acc j || existsb (Z.eqb j) ids.
Proof.
  intros m ids. induction ids as [|i ids IH]; intros acc Hr Ha; cbn [fold_full existsb].
  - exists acc. split; [reflexivity|]. split; [exact Ha|]. intros. rewrite orb_false_r. reflexivity.
  - inversion Hr; subst. rewrite shl1_small by assumption. cbn [obind].
    destruct (IH (Z.lor acc (2 ^ i))) as (full & E & H16 & Hb).
    + assumption.
    + destruct Ha as [Ha1 Ha2]. split.
      * apply Z.lor_nonneg. split; [exact Ha1|]. apply Z.pow_nonneg. lia.
      * intros j Hj. rewrite Z.lor_spec, Ha2, Z.pow2_bits_false by lia. reflexivity.
    + exists full. split; [exact E|]. split; [exact H16|]. intros j Hj.
      rewrite Hb, Z.lor_spec by lia. rewrite <- orb_assoc. f_equal. f_equal.
      destruct (Z.eqb_spec j i) as [->|N]; [apply Z.pow2_bits_true; lia|apply Z.pow2_bits_false; lia].
Qed.

(** ** Traces *)

Section Traces.
Context {T : Type}.
Implicit Types (h : history T) (e : event T).

Lemma acts_snoc_same : forall t h e, acts t (h ++ [(t, e)]) = acts t h ++ [e].
Proof.
  intros. unfold acts. rewrite filter_app, map_app. cbn. rewrite Nat.eqb_refl. reflexivity.
Qed.

Lemma acts_snoc_other : forall t t' h e, t' <> t -> acts t (h ++ [(t', e)]) = acts t h.
Proof.
  intros. unfold acts. rewrite filter_app, map_app. cbn.
  destruct (Nat.eqb_spec t' t); [contradiction|]. cbn. apply app_nil_r.
Qed.

Lemma count_snoc : forall f (l : list (event T)) e, count f (l ++ [e]) = (count f l + if f e then 1 else 0)%nat.
Proof.
  intros. unfold count. rewrite filter_app, app_length. cbn. destruct (f e); reflexivity.
Qed.

Lemma value_after_snoc : forall h d t e, value_after d (h ++ [(t, e)]) =
  match e with EWrite v => v | _ => value_after d h end.
Proof.
  induction h as [|[t0 e0] h IH]; intros; cbn [app value_after].
  - destruct e; reflexivity.
  - destruct e0; apply IH.
Qed.

Lemma published_snoc : forall h d t e, published d (h ++ [(t, e)]) =
  match e with ENotify => published d h ++ [value_after d h] | _ => published d h end.
Proof.
  induction h as [|[t0 e0] h IH]; intros; cbn [app published value_after].
  - destruct e; reflexivity.
  - destruct e0; rewrite ?IH; try reflexivity. destruct e; reflexivity.
Qed.

(** The phase the producer is in: has [get_mut] answered [Some] since the last
    notification? *)
Fixpoint pphase (b : bool) (l : list (event T)) : bool :=
  match l with
  | [] => b
  | EGetMut got :: r => pphase got r
  | ENotify :: r => pphase false r
  | _ :: r => pphase b r
  end.

Fixpoint wphase (b : bool) (l : list (event T)) : bool :=
  match l with
  | [] => b
  | EGet _ got :: r => wphase got r
  | EDone _ :: r => wphase false r
  | _ :: r => wphase b r
  end.

Lemma pphase_snoc : forall l b e, pphase b (l ++ [e]) =
  match e with EGetMut got => got | ENotify => false | _ => pphase b l end.
Proof. induction l as [|e0 l IH]; intros; cbn; [destruct e; reflexivity|]. destruct e0; apply IH. Qed.

Lemma wphase_snoc : forall l b e, wphase b (l ++ [e]) =
  match e with EGet _ got => got | EDone _ => false | _ => wphase b l end.
Proof. induction l as [|e0 l IH]; intros; cbn; [destruct e; reflexivity|]. destruct e0; apply IH. Qed.

Lemma producer_ok_snoc : forall l b e, producer_ok b (l ++ [e]) ->
  producer_ok b l /\
  match e with
  | EGetMut _ => pphase b l = false
  | ENotify | EWrite _ | ERead _ => pphase b l = true
  | EGet _ _ | EDone _ => False
  end.
Proof.
  induction l as [|e0 l IH]; intros b e H; cbn [app] in H.
  - split; [constructor|]. inversion H; subst; reflexivity.
  - inversion H; subst;
      match goal with HH : _ (l ++ [e]) |- _ => destruct (IH _ _ HH) as [A B] end;
      (split; [constructor; exact A|exact B]).
Qed.

Lemma worker_ok_snoc : forall w l b e, worker_ok w b (l ++ [e]) ->
  worker_ok w b l /\
  match e with
  | EGet w' _ => w' = w /\ wphase b l = false
  | EDone w' => w' = w /\ wphase b l = true
  | ERead _ => wphase b l = true
  | _ => False
  end.
Proof.
  intros w. induction l as [|e0 l IH]; intros b e H; cbn [app] in H.
  - split; [constructor|]. inversion H; subst; auto.
  - inversion H; subst;
      match goal with HH : _ (l ++ [e]) |- _ => destruct (IH _ _ HH) as [A B] end;
      (split; [constructor; exact A|exact B]).
Qed.

(** Taken = finished, plus one while working. *)
Lemma worker_counts : forall w l b, worker_ok w b l ->
  (count is_take l + (if b then 1 else 0) = count is_done l + if wphase b l then 1 else 0)%nat.
Proof.
  intros w l. induction l as [|e l IH] using rev_ind; intros b H.
  - cbn. destruct b; reflexivity.
  - destruct (worker_ok_snoc _ _ _ _ H) as [A B]. specialize (IH _ A).
    rewrite !count_snoc, wphase_snoc.
    destruct e; cbn [is_take is_done] in *; try contradiction; try lia.
    + destruct B as [_ B]. rewrite B in IH. destruct got; lia.
    + destruct B as [_ B]. rewrite B in IH. lia.
Qed.

Lemma contract_snoc : forall (c : cast) h t e, contract c (h ++ [(t, e)]) ->
  contract c h /\
  ((t = producer c /\
     match e with
     | EGetMut _ => pphase false (acts (producer c) h) = false
     | ENotify | EWrite _ | ERead _ => pphase false (acts (producer c) h) = true
     | EGet _ _ | EDone _ => False
     end) \/
   (t <> producer c /\ exists w, identity c t = Some w /\
     match e with
     | EGet w' _ => w' = w /\ wphase false (acts t h) = false
     | EDone w' => w' = w /\ wphase false (acts t h) = true
     | ERead _ => wphase false (acts t h) = true
     | _ => False
     end)).
Proof.
  intros c h t e [HP HW].
  destruct (Nat.eq_dec t (producer c)) as [->|N].
  - rewrite acts_snoc_same in HP. destruct (producer_ok_snoc _ _ _ HP) as [A B].
    split; [|left; split; [reflexivity|exact B]].
    split; [exact A|]. intros t Ht. specialize (HW t Ht). rewrite acts_snoc_other in HW by auto. exact HW.
  - rewrite acts_snoc_other in HP by auto.
    pose proof (HW t N) as Hw. destruct (identity c t) as [w|] eqn:E.
    + rewrite acts_snoc_same in Hw. destruct (worker_ok_snoc _ _ _ _ Hw) as [A B].
      split; [|right; split; [exact N|exists w; split; [reflexivity|exact B]]].
      split; [exact HP|]. intros t' Ht'. specialize (HW t' Ht').
      destruct (Nat.eq_dec t t') as [<-|N'].
      * rewrite E. exact A.
      * rewrite acts_snoc_other in HW by auto. exact HW.
    + rewrite acts_snoc_same in Hw. destruct (acts t h); discriminate.
Qed.

End Traces.
