(** OBTrade.v -- the trading loops compute a sweep through the levels in
    priority order, and preserve the half-book invariant. *)
From Coq Require Import ZArith List Lia Sorted Bool.
From stdpp Require Import base gmap.
From Verif Require Import Base OBTypes OBModel OBBase OBInv OBRemove.
Import ListNotations.
Open Scope Z_scope.

Ltac tup :=
  lazymatch goal with
  | |- Ret _ = Ret _ => apply f_equal; tup
  | |- (_, _) = (_, _) => apply f_equal2; tup
  | |- _ => try reflexivity; try lia
  end.

Lemma level_trade_loop_spec m : forall q total r ids,
  posq q -> 0 <= r -> sumq q <= total ->
  level_trade_loop m q total r ids =
  Ret (ids ++ eaten r q, Z.max 0 (r - sumq q), total - Z.min r (sumq q), eat r q).
Proof.
  induction q as [|[i x] t IH]; intros total r ids Hp Hr Ht.
  - simpl. unfold sumq. simpl. rewrite app_nil_r. destruct (Z.ltb_spec 0 r); tup.
  - apply Forall_cons in Hp as [Hx Hp]. simpl in Hx. pose proof (sumq_pos t Hp) as Hs.
    assert (Hsum : sumq ((i, x) :: t) = x + sumq t) by reflexivity. rewrite Hsum in *.
    cbn [level_trade_loop eat eaten]. destruct (Z.ltb_spec 0 r).
    + destruct (Z.leb_spec r 0); [lia|]. destruct (Z.ltb_spec r x).
      * rewrite !usub_ok by lia. cbn [obind]. rewrite app_nil_r. tup.
      * rewrite !usub_ok by lia. cbn [obind]. rewrite IH by (auto; lia).
        rewrite <- app_assoc. simpl. tup.
    + destruct (Z.leb_spec r 0); [|lia]. rewrite app_nil_r. tup.
Qed.

Lemma level_trade_spec m l p r : level_wf p l -> 0 <= r ->
  level_trade m l r =
  Ret (Level (l_price l) (eat r (l_orders l)) (l_total l - Z.min r (l_total l)),
       eaten r (l_orders l), r - Z.min r (l_total l), l_total l - Z.min r (l_total l)).
Proof.
  intros [_ _ Hne Hpos _ Htot] Hr. unfold level_trade. destruct (l_orders l) as [|y ys] eqn:E; [tauto|].
  rewrite level_trade_loop_spec by (auto; lia). cbn [obind].
  rewrite Htot. pose proof (sumq_pos _ Hpos). tup.
Qed.

Section sweep.
  Variable ok : Z -> bool.

  Fixpoint sweep (r : Z) (pls : list (Z * level)) : list (Z * level) :=
    match pls with
    | [] => []
    | (p, l) :: t =>
        if negb (ok p) || (r <=? 0) then pls
        else (p, Level (l_price l) (eat r (l_orders l)) (l_total l - Z.min r (l_total l)))
             :: sweep (r - Z.min r (l_total l)) t
    end.
  Fixpoint sweep_hist (r : Z) (pls : list (Z * level)) : trade_history :=
    match pls with
    | [] => []
    | (p, l) :: t =>
        if negb (ok p) || (r <=? 0) then []
        else (p, Z.min r (l_total l)) :: sweep_hist (r - Z.min r (l_total l)) t
    end.
  Fixpoint sweep_rmp (r : Z) (pls : list (Z * level)) : list Z :=
    match pls with
    | [] => []
    | (p, l) :: t =>
        if negb (ok p) || (r <=? 0) then []
        else (if l_total l <=? r then [p] else []) ++ sweep_rmp (r - Z.min r (l_total l)) t
    end.
  Fixpoint sweep_ids (r : Z) (pls : list (Z * level)) : list Z :=
    match pls with
    | [] => []
    | (p, l) :: t =>
        if negb (ok p) || (r <=? 0) then []
        else eaten r (l_orders l) ++ sweep_ids (r - Z.min r (l_total l)) t
    end.
  Fixpoint sweep_left (r : Z) (pls : list (Z * level)) : Z :=
    match pls with
    | [] => r
    | (p, l) :: t =>
        if negb (ok p) || (r <=? 0) then r
        else sweep_left (r - Z.min r (l_total l)) t
    end.
  (** what is left of the incoming quantity when price [p] is reached *)
  Fixpoint reach (r : Z) (pls : list (Z * level)) (p : Z) : Z :=
    match pls with
    | [] => 0
    | (p', l) :: t =>
        if negb (ok p') || (r <=? 0) then 0
        else if p =? p' then r else reach (r - Z.min r (l_total l)) t p
    end.

  Definition lwf (pls : list (Z * level)) : Prop :=
    Forall (fun pl => level_wf (fst pl) (snd pl)) pls.

  Lemma lwf_pos p l : level_wf p l -> 0 < l_total l.
  Proof.
    intros []. rewrite lw_total. pose proof (sumq_pos _ lw_pos).
    destruct (Z.eq_dec (sumq (l_orders l)) 0) as [E|]; [|lia].
    apply sumq_zero in E; auto. congruence.
  Qed.

  Lemma lwf_sum pls : lwf pls -> 0 <= sumt pls.
  Proof.
    induction 1 as [|[p l] t H1 H2 IH]; unfold sumt in *; simpl in *; [lia|].
    apply lwf_pos in H1. unfold sumv in *. simpl. lia.
  Qed.

  Lemma sweep_left_bounds pls : forall r, lwf pls -> 0 <= r ->
    0 <= sweep_left r pls <= r /\ r - sweep_left r pls <= sumt pls.
  Proof.
    induction pls as [|[p l] t IH]; intros r Hw Hr; simpl.
    - unfold sumt, sumv. simpl. lia.
    - apply Forall_cons in Hw as [H1 H2]. simpl in H1. pose proof (lwf_pos _ _ H1).
      pose proof (lwf_sum t H2). unfold sumt, sumv in *. simpl in *.
      destruct (negb (ok p) || (r <=? 0)); [lia|].
      specialize (IH (r - Z.min r (l_total l)) H2). lia.
  Qed.

  Lemma keys_sweep pls : forall r, keys (sweep r pls) = keys pls.
  Proof.
    induction pls as [|[p l] t IH]; intros r; simpl; [reflexivity|].
    destruct (negb (ok p) || (r <=? 0)); [reflexivity|]. unfold keys in *. simpl. now rewrite IH.
  Qed.

  Lemma sweep_sum pls : forall r, lwf pls -> 0 <= r ->
    sumt (sweep r pls) = sumt pls - (r - sweep_left r pls).
  Proof.
    unfold sumt, sumv. induction pls as [|[p l] t IH]; intros r Hw Hr; simpl; [lia|].
    apply Forall_cons in Hw as [H1 H2]. simpl in H1. pose proof (lwf_pos _ _ H1).
    destruct (negb (ok p) || (r <=? 0)); simpl; [lia|].
    rewrite IH by (auto; lia). lia.
  Qed.

  Lemma sweep_0 pls r : r <= 0 -> sweep r pls = pls.
  Proof. destruct pls as [|[p l] t]; simpl; [reflexivity|]. intros H. destruct (Z.leb_spec r 0); [|lia].
    now rewrite orb_true_r. Qed.
  Lemma sweep_hist_0 pls r : r <= 0 -> sweep_hist r pls = [].
  Proof. destruct pls as [|[p l] t]; simpl; [reflexivity|]. intros H. destruct (Z.leb_spec r 0); [|lia].
    now rewrite orb_true_r. Qed.
  Lemma sweep_rmp_0 pls r : r <= 0 -> sweep_rmp r pls = [].
  Proof. destruct pls as [|[p l] t]; simpl; [reflexivity|]. intros H. destruct (Z.leb_spec r 0); [|lia].
    now rewrite orb_true_r. Qed.
  Lemma sweep_ids_0 pls r : r <= 0 -> sweep_ids r pls = [].
  Proof. destruct pls as [|[p l] t]; simpl; [reflexivity|]. intros H. destruct (Z.leb_spec r 0); [|lia].
    now rewrite orb_true_r. Qed.
  Lemma sweep_left_0 pls r : r <= 0 -> sweep_left r pls = r.
  Proof. destruct pls as [|[p l] t]; simpl; [reflexivity|]. intros H. destruct (Z.leb_spec r 0); [|lia].
    now rewrite orb_true_r. Qed.
  Lemma reach_0 pls r p : r <= 0 -> reach r pls p = 0.
  Proof. destruct pls as [|[p' l] t]; simpl; [reflexivity|]. intros H. destruct (Z.leb_spec r 0); [|lia].
    now rewrite orb_true_r. Qed.

  (** Lookup after the sweep.  [NoDup] on keys covers both iteration orders. *)
  Lemma reach_bounds pls p : forall r, lwf pls -> 0 <= r -> 0 <= reach r pls p <= r.
  Proof.
    induction pls as [|[p' l] t IH]; intros r Hw Hr; simpl; [lia|].
    apply Forall_cons in Hw as [H1 H2]. simpl in H1. pose proof (lwf_pos _ _ H1).
    destruct (negb (ok p') || (r <=? 0)); [lia|]. destruct (p =? p'); [lia|].
    specialize (IH (r - Z.min r (l_total l)) H2). lia.
  Qed.

  Lemma sweep_In pls p l' : forall r, NoDup (keys pls) -> lwf pls -> 0 <= r ->
    In (p, l') (sweep r pls) <->
    exists l, In (p, l) pls /\
      l' = Level (l_price l) (eat (reach r pls p) (l_orders l))
                 (l_total l - Z.min (reach r pls p) (l_total l)).
  Proof.
    assert (Hid : forall p l, level_wf p l ->
       Level (l_price l) (eat 0 (l_orders l)) (l_total l - Z.min 0 (l_total l)) = l).
    { intros q l H. pose proof (lwf_pos _ _ H). rewrite eat_le0 by lia. rewrite Z.min_l by lia.
      rewrite Z.sub_0_r. now destruct l. }
    induction pls as [|[p' l] t IH]; intros r Hnd Hw Hr.
    - simpl. split; [tauto|]. intros (? & [] & _).
    - apply Forall_cons in Hw as [H1 H2]. simpl in H1. pose proof (lwf_pos _ _ H1) as Hpos.
      simpl in Hnd. apply NoDup_cons in Hnd as [Hni Hnd]. rewrite elem_of_list_In in Hni.
      simpl. destruct (negb (ok p') || (r <=? 0)) eqn:Ec.
      + split.
        * intros Hin. exists l'. split; [exact Hin|]. symmetry.
          destruct Hin as [E|Hin]; [injection E as <- <-; now apply (Hid p')|].
          unfold lwf in H2. rewrite List.Forall_forall in H2. apply (Hid p). exact (H2 _ Hin).
        * intros (l0 & Hin & ->).
          assert (level_wf p l0).
          { destruct Hin as [E|Hin]; [injection E as <- <-; exact H1|].
            unfold lwf in H2. rewrite List.Forall_forall in H2. exact (H2 _ Hin). }
          rewrite (Hid p) by assumption. exact Hin.
      + apply orb_false_iff in Ec as [_ Er]. apply Z.leb_gt in Er.
        destruct (Z.eqb_spec p p') as [->|Hne].
        * split.
          -- intros [E|Hin].
             ++ injection E as <-. exists l. split; [now left|reflexivity].
             ++ exfalso. apply Hni. apply (in_map fst) in Hin. simpl in Hin.
                fold (keys (sweep (r - Z.min r (l_total l)) t)) in Hin. now rewrite keys_sweep in Hin.
          -- intros (l0 & [E|Hin] & ->).
             ++ injection E as <-. now left.
             ++ exfalso. apply Hni. apply (in_map fst) in Hin. exact Hin.
        * split.
          -- intros [E|Hin]; [congruence|]. apply IH in Hin as (l0 & Hin & ->); auto; [|lia].
             exists l0. split; [now right|reflexivity].
          -- intros (l0 & [E|Hin] & ->); [congruence|]. right. apply IH; auto; [lia|].
             exists l0. auto.
  Qed.

  Lemma sweep_rmp_In pls p : forall r, NoDup (keys pls) -> lwf pls -> 0 <= r ->
    In p (sweep_rmp r pls) <-> exists l, In (p, l) pls /\ l_total l <= reach r pls p.
  Proof.
    induction pls as [|[p' l] t IH]; intros r Hnd Hw Hr.
    - simpl. split; [tauto|]. intros (? & [] & _).
    - pose proof Hw as Hw0. apply Forall_cons in Hw as [H1 H2]. simpl in H1. pose proof (lwf_pos _ _ H1) as Hpos.
      simpl in Hnd. apply NoDup_cons in Hnd as [Hni Hnd]. rewrite elem_of_list_In in Hni.
      simpl. destruct (negb (ok p') || (r <=? 0)) eqn:Ec.
      + split; [intros []|]. intros (l0 & Hin & Hle).
        assert (level_wf p l0).
        { unfold lwf in Hw0. rewrite List.Forall_forall in Hw0. exact (Hw0 _ Hin). }
        pose proof (lwf_pos _ _ H). lia.
      + rewrite in_app_iff. specialize (IH (r - Z.min r (l_total l)) Hnd H2).
        destruct (Z.eqb_spec p p') as [->|Hne].
        * split.
          -- intros [Hin|Hin].
             ++ destruct (Z.leb_spec (l_total l) r); [|destruct Hin]. exists l. split; [now left|lia].
             ++ apply IH in Hin as (l0 & Hin & _); [|lia]. exfalso. apply Hni. now apply (in_map fst) in Hin.
          -- intros (l0 & [E|Hin] & Hle).
             ++ injection E as <-. left. destruct (Z.leb_spec (l_total l) r); [now left|lia].
             ++ exfalso. apply Hni. now apply (in_map fst) in Hin.
        * split.
          -- intros [Hin|Hin].
             ++ destruct (l_total l <=? r); [|destruct Hin]. destruct Hin as [?|[]]. congruence.
             ++ apply IH in Hin as (l0 & Hin & Hle); [|lia]. exists l0. split; [now right|exact Hle].
          -- intros (l0 & [E|Hin] & Hle); [congruence|]. right. apply IH; [lia|]. eauto.
  Qed.

  Lemma sweep_ids_In pls i : forall r, NoDup (keys pls) -> lwf pls -> 0 <= r ->
    In i (sweep_ids r pls) <-> exists p l, In (p, l) pls /\ In i (eaten (reach r pls p) (l_orders l)).
  Proof.
    induction pls as [|[p' l] t IH]; intros r Hnd Hw Hr.
    - simpl. split; [tauto|]. intros (? & ? & [] & _).
    - pose proof Hw as Hw0. apply Forall_cons in Hw as [H1 H2]. simpl in H1. pose proof (lwf_pos _ _ H1) as Hpos.
      simpl in Hnd. apply NoDup_cons in Hnd as [Hni Hnd]. rewrite elem_of_list_In in Hni.
      simpl. destruct (negb (ok p') || (r <=? 0)) eqn:Ec.
      + split; [intros []|]. intros (q & l0 & Hin & Hle). rewrite eaten_le0 in Hle by lia. destruct Hle.
      + rewrite in_app_iff. specialize (IH (r - Z.min r (l_total l)) Hnd H2).
        split.
        * intros [Hin|Hin].
          -- exists p', l. split; [now left|]. now rewrite Z.eqb_refl.
          -- apply IH in Hin as (q & l0 & Hin & Hi); [|lia]. exists q, l0. split; [now right|].
             destruct (Z.eqb_spec q p') as [->|]; [|exact Hi].
             exfalso. apply Hni. now apply (in_map fst) in Hin.
        * intros (q & l0 & [E|Hin] & Hi).
          -- injection E as <- <-. left. now rewrite Z.eqb_refl in Hi.
          -- right. apply IH; [lia|]. exists q, l0. split; [exact Hin|].
             destruct (Z.eqb_spec q p') as [->|]; [|exact Hi].
             exfalso. apply Hni. now apply (in_map fst) in Hin.
  Qed.
End sweep.

(** ** The loops *)
Lemma ask_limit_loop_spec m op : forall pls hist rmp rmi ht r,
  lwf pls -> 0 <= r -> sumt pls <= ht ->
  ask_limit_loop m op pls hist rmp rmi ht r =
  let ok := fun p => p <=? op in
  Ret (sweep ok r pls, hist ++ sweep_hist ok r pls, rmp ++ sweep_rmp ok r pls,
       rmi ++ sweep_ids ok r pls, ht - (r - sweep_left ok r pls), sweep_left ok r pls).
Proof.
  induction pls as [|[p l] t IH]; intros hist rmp rmi ht r Hw Hr Hht; cbn zeta in *.
  - simpl. rewrite !app_nil_r. tup.
  - apply Forall_cons in Hw as [H1 H2]. cbn [fst snd] in H1. pose proof (lwf_pos _ _ H1) as Hpos.
    assert (Hs : sumt ((p, l) :: t) = l_total l + sumt t) by reflexivity. pose proof (lwf_sum t H2).
    cbn [ask_limit_loop sweep sweep_hist sweep_rmp sweep_ids sweep_left].
    replace (negb (p <=? op) || (r <=? 0)) with ((op <? p) || (r =? 0)).
    2:{ rewrite <- Z.ltb_antisym. f_equal. destruct (Z.eqb_spec r 0), (Z.leb_spec r 0); lia. }
    destruct ((op <? p) || (r =? 0)) eqn:Ec.
    + rewrite !app_nil_r. tup.
    + apply orb_false_iff in Ec as [_ Ec]. apply Z.eqb_neq in Ec.
      rewrite (level_trade_spec m l p r H1 Hr). cbn [obind].
      unfold usat_sub. destruct (Z.ltb_spec 0 (Z.max 0 (r - (r - Z.min r (l_total l))))); [|lia].
      rewrite usub_ok by lia. cbn [obind].
      rewrite IH by (auto; lia). cbn [obind].
      rewrite <- !app_assoc. cbn [app].
      replace (Z.max 0 (r - (r - Z.min r (l_total l)))) with (Z.min r (l_total l)) by lia.
      replace (if l_total l - Z.min r (l_total l) =? 0 then rmp ++ [p] else rmp)
        with (rmp ++ (if l_total l <=? r then [p] else [])).
      2:{ destruct (Z.eqb_spec (l_total l - Z.min r (l_total l)) 0), (Z.leb_spec (l_total l) r);
            try lia; now rewrite ?app_nil_r. }
      rewrite <- !app_assoc. tup.
Qed.

Lemma bid_limit_loop_spec m op : forall pls hist rmp rmi ht r,
  lwf pls -> 0 <= r -> sumt pls <= ht ->
  bid_limit_loop m op pls hist rmp rmi ht r =
  let ok := fun p => op <=? p in
  Ret (sweep ok r pls, hist ++ sweep_hist ok r pls, rmp ++ sweep_rmp ok r pls,
       rmi ++ sweep_ids ok r pls, ht - (r - sweep_left ok r pls), sweep_left ok r pls).
Proof.
  induction pls as [|[p l] t IH]; intros hist rmp rmi ht r Hw Hr Hht; cbn zeta in *.
  - simpl. rewrite !app_nil_r. tup.
  - apply Forall_cons in Hw as [H1 H2]. cbn [fst snd] in H1. pose proof (lwf_pos _ _ H1) as Hpos.
    assert (Hs : sumt ((p, l) :: t) = l_total l + sumt t) by reflexivity. pose proof (lwf_sum t H2).
    cbn [bid_limit_loop sweep sweep_hist sweep_rmp sweep_ids sweep_left].
    replace (negb (op <=? p) || (r <=? 0)) with ((p <? op) || (r =? 0)).
    2:{ rewrite <- Z.ltb_antisym. f_equal. destruct (Z.eqb_spec r 0), (Z.leb_spec r 0); lia. }
    destruct ((p <? op) || (r =? 0)) eqn:Ec.
    + rewrite !app_nil_r. tup.
    + apply orb_false_iff in Ec as [_ Ec]. apply Z.eqb_neq in Ec.
      rewrite (level_trade_spec m l p r H1 Hr). cbn [obind].
      unfold usat_sub. destruct (Z.ltb_spec 0 (Z.max 0 (r - (r - Z.min r (l_total l))))); [|lia].
      rewrite usub_ok by lia. cbn [obind].
      rewrite IH by (auto; lia). cbn [obind].
      rewrite <- !app_assoc. cbn [app].
      replace (Z.max 0 (r - (r - Z.min r (l_total l)))) with (Z.min r (l_total l)) by lia.
      replace (if l_total l - Z.min r (l_total l) =? 0 then rmp ++ [p] else rmp)
        with (rmp ++ (if l_total l <=? r then [p] else [])).
      2:{ destruct (Z.eqb_spec (l_total l - Z.min r (l_total l)) 0), (Z.leb_spec (l_total l) r);
            try lia; now rewrite ?app_nil_r. }
      rewrite <- !app_assoc. tup.
Qed.

Definition any_price (_ : Z) : bool := true.

Lemma ask_market_loop_spec m : forall pls hist rmp rmi ht r,
  lwf pls -> 0 <= r -> sumt pls <= ht ->
  ask_market_loop m pls hist rmp rmi ht r =
  let ok := any_price in
  Ret (sweep ok r pls, hist ++ sweep_hist ok r pls, rmp ++ sweep_rmp ok r pls,
       rmi ++ sweep_ids ok r pls, ht - (r - sweep_left ok r pls), sweep_left ok r pls).
Proof.
  induction pls as [|[p l] t IH]; intros hist rmp rmi ht r Hw Hr Hht; cbn zeta in *.
  - simpl. rewrite !app_nil_r. tup.
  - apply Forall_cons in Hw as [H1 H2]. cbn [fst snd] in H1. pose proof (lwf_pos _ _ H1) as Hpos.
    assert (Hs : sumt ((p, l) :: t) = l_total l + sumt t) by reflexivity. pose proof (lwf_sum t H2).
    cbn [ask_market_loop sweep sweep_hist sweep_rmp sweep_ids sweep_left].
    unfold any_price at 1 3 5 7 9 11. cbn [negb orb].
    rewrite (level_trade_spec m l p r H1 Hr). cbn [obind]. unfold usat_sub.
    destruct (Z.leb_spec r 0) as [Hr0|Hr0].
    + assert (r = 0) as -> by lia. rewrite Z.min_l by lia. simpl.
      destruct (Z.eqb_spec (l_total l - 0) 0); [lia|]. rewrite eat_le0, eaten_le0 by lia.
      rewrite !app_nil_r, !Z.sub_0_r. destruct l; reflexivity.
    + destruct (Z.ltb_spec 0 (Z.max 0 (r - (r - Z.min r (l_total l))))); [|lia].
      rewrite usub_ok by lia. cbn [obind].
      replace (Z.max 0 (r - (r - Z.min r (l_total l)))) with (Z.min r (l_total l)) by lia.
      replace (if l_total l - Z.min r (l_total l) =? 0 then rmp ++ [p] else rmp)
        with (rmp ++ (if l_total l <=? r then [p] else [])).
      2:{ destruct (Z.eqb_spec (l_total l - Z.min r (l_total l)) 0), (Z.leb_spec (l_total l) r);
            try lia; now rewrite ?app_nil_r. }
      destruct (Z.eqb_spec (r - Z.min r (l_total l)) 0) as [E0|E0].
      * rewrite E0. rewrite sweep_0, sweep_hist_0, sweep_rmp_0, sweep_ids_0, sweep_left_0 by lia.
        rewrite !app_nil_r. tup.
      * rewrite IH by (auto; lia). cbn [obind]. rewrite <- !app_assoc. tup.
Qed.

(** ** Clean-up and the whole half-book operation *)
Lemma fold_remove_sorted {V} ps : forall (m : list (Z * V)), sorted m -> sorted (fold_left (fun ls p => bt_remove p ls) ps m).
Proof. induction ps as [|p t IH]; intros m Hs; simpl; [exact Hs|]. apply IH, sorted_remove, Hs. Qed.

Lemma fold_remove_get {V} ps : forall (m : list (Z * V)) k, sorted m ->
  bt_get k (fold_left (fun ls p => bt_remove p ls) ps m) = if in_dec Z.eq_dec k ps then None else bt_get k m.
Proof.
  induction ps as [|p t IH]; intros m k Hs; cbn [fold_left]; [reflexivity|].
  rewrite IH by now apply sorted_remove. rewrite bt_get_remove by exact Hs.
  destruct (in_dec Z.eq_dec k t) as [H1|H1], (in_dec Z.eq_dec k (p :: t)) as [H2|H2]; try reflexivity.
  - exfalso. apply H2. now right.
  - destruct H2 as [->|H2]; [now rewrite Z.eqb_refl|tauto].
  - destruct (Z.eqb_spec k p); [|reflexivity]. exfalso. apply H2. now left.
Qed.

Lemma fold_remove_sum ps : forall (m : list (Z * level)), sorted m ->
  (forall p, In p ps -> wget l_total p m = 0) ->
  sumt (fold_left (fun ls p => bt_remove p ls) ps m) = sumt m.
Proof.
  induction ps as [|p t IH]; intros m Hs Hz; cbn [fold_left]; [reflexivity|].
  rewrite IH.
  - unfold sumt. rewrite sumv_remove by exact Hs. rewrite Hz by now left. lia.
  - now apply sorted_remove.
  - intros q Hq. unfold wget. rewrite bt_get_remove by exact Hs. destruct (q =? p); [reflexivity|].
    apply Hz. now right.
Qed.

Lemma sorted_nodup {V} (m : list (Z * V)) : sorted m -> NoDup (keys m).
Proof.
  unfold sorted. induction (keys m) as [|k t IH]; intros Hs; [constructor|].
  inversion Hs as [|? ? Hs' Hf]; subst. apply NoDup_cons. split; [|auto].
  rewrite elem_of_list_In. intros Hin. rewrite List.Forall_forall in Hf. specialize (Hf _ Hin). lia.
Qed.

(** Levels in the order in which they trade. *)
Definition plevels (h : half) : list (Z * level) :=
  match h_side h with Ask => h_levels h | Bid => rev (h_levels h) end.

Lemma plevels_In h x : In x (plevels h) <-> In x (h_levels h).
Proof. unfold plevels. destruct (h_side h); [tauto|]. symmetry. apply in_rev. Qed.
Lemma plevels_lwf h : half_wf h -> lwf (plevels h).
Proof.
  intros Hw. unfold lwf. apply List.Forall_forall. intros x Hx. apply plevels_In in Hx.
  pose proof (hw_levels h Hw) as H. rewrite List.Forall_forall in H. auto.
Qed.
Lemma plevels_nodup h : half_wf h -> NoDup (keys (plevels h)).
Proof.
  intros Hw. pose proof (sorted_nodup _ (hw_sorted h Hw)) as H.
  unfold plevels. destruct (h_side h); [exact H|]. unfold keys. rewrite map_rev.
  apply NoDup_ListNoDup, NoDup_rev, NoDup_ListNoDup, H.
Qed.
Lemma plevels_sum h : sumt (plevels h) = sumt (h_levels h).
Proof. unfold plevels. destruct (h_side h); [reflexivity|]. apply sumv_rev. Qed.

(** The half-book after a sweep of quantity [r] through acceptable prices. *)
Definition swept (ok : Z -> bool) (r : Z) (h : half) : half :=
  half_cleanup
    (Half (h_side h)
       (match h_side h with Ask => sweep ok r (plevels h) | Bid => rev (sweep ok r (plevels h)) end)
       (h_cache h) (h_best h) (h_total h - (r - sweep_left ok r (plevels h))))
    (sweep_rmp ok r (plevels h)) (sweep_ids ok r (plevels h)).

Lemma swept_ok ok r h : half_wf h -> 0 <= r ->
  half_wf (swept ok r h) /\ h_side (swept ok r h) = h_side h /\
  h_total (swept ok r h) = h_total h - (r - sweep_left ok r (plevels h)) /\
  (forall i p, h_cache (swept ok r h) !! i = Some p -> h_cache h !! i = Some p) /\
  forall p, queue (h_levels (swept ok r h)) p = eat (reach ok r (plevels h) p) (queue (h_levels h) p).
Proof.
  intros Hw Hr.
  pose proof (plevels_lwf h Hw) as Hlw. pose proof (plevels_nodup h Hw) as Hnd.
  set (pls := plevels h) in *.
  set (L := match h_side h with Ask => sweep ok r pls | Bid => rev (sweep ok r pls) end).
  assert (HLin : forall x, In x L <-> In x (sweep ok r pls)).
  { intros x. unfold L. destruct (h_side h); [tauto|]. symmetry. apply in_rev. }
  assert (HLs : sorted L).
  { assert (E : keys L = keys (h_levels h)).
    { unfold L, pls, plevels. destruct (h_side h); [apply keys_sweep|].
      unfold keys. rewrite map_rev. fold (keys (sweep ok r (rev (h_levels h)))). rewrite keys_sweep.
      unfold keys. rewrite map_rev. apply rev_involutive. }
    unfold sorted. rewrite E. apply Hw. }
  assert (HLsum : sumt L = h_total h - (r - sweep_left ok r pls)).
  { unfold L. transitivity (sumt (sweep ok r pls)).
    - destruct (h_side h); [reflexivity|apply sumv_rev].
    - rewrite sweep_sum by auto. unfold pls. rewrite plevels_sum, <- (hw_total h Hw). reflexivity. }
  (* lookup in L *)
  assert (HLget : forall p, bt_get p L =
     match bt_get p (h_levels h) with
     | Some l => Some (Level (l_price l) (eat (reach ok r pls p) (l_orders l))
                        (l_total l - Z.min (reach ok r pls p) (l_total l)))
     | None => None
     end).
  { intros p. destruct (bt_get p (h_levels h)) as [l|] eqn:Hg.
    - apply bt_In_get; [exact HLs|]. apply HLin. apply sweep_In; auto. exists l. split; [|reflexivity].
      apply plevels_In. now apply bt_get_In.
    - destruct (bt_get p L) as [l'|] eqn:HgL; [|reflexivity]. exfalso.
      apply bt_get_In, HLin, sweep_In in HgL as (l & Hin & _); auto.
      apply plevels_In in Hin. apply bt_In_get in Hin; [congruence|apply Hw]. }
  set (rmp := sweep_rmp ok r pls). set (rmi := sweep_ids ok r pls).
  assert (Hrmp : forall p, In p rmp <-> exists l, bt_get p (h_levels h) = Some l /\ l_total l <= reach ok r pls p).
  { intros p. unfold rmp. rewrite sweep_rmp_In by auto. split.
    - intros (l & Hin & Hle). apply plevels_In in Hin. exists l. split; [|exact Hle].
      apply bt_In_get; [apply Hw|exact Hin].
    - intros (l & Hg & Hle). exists l. split; [|exact Hle]. apply plevels_In. now apply bt_get_In. }
  set (L2 := fold_left (fun ls p => bt_remove p ls) rmp L).
  assert (HL2s : sorted L2) by now apply fold_remove_sorted.
  assert (HL2get : forall p, bt_get p L2 =
     match bt_get p (h_levels h) with
     | Some l => if l_total l <=? reach ok r pls p then None
                 else Some (Level (l_price l) (eat (reach ok r pls p) (l_orders l))
                        (l_total l - reach ok r pls p))
     | None => None
     end).
  { intros p. unfold L2. rewrite fold_remove_get by exact HLs. rewrite HLget.
    destruct (bt_get p (h_levels h)) as [l|] eqn:Hg.
    - destruct (in_dec Z.eq_dec p rmp) as [Hi|Hi].
      + apply Hrmp in Hi as (l0 & E & Hle). rewrite Hg in E. injection E as <-.
        destruct (Z.leb_spec (l_total l) (reach ok r pls p)); [reflexivity|lia].
      + destruct (Z.leb_spec (l_total l) (reach ok r pls p)).
        * exfalso. apply Hi, Hrmp. eauto.
        * rewrite Z.min_l by lia. reflexivity.
    - now destruct (in_dec Z.eq_dec p rmp). }
  assert (HQ : forall p, queue L2 p = eat (reach ok r pls p) (queue (h_levels h) p)).
  { intros p. unfold queue. rewrite HL2get. destruct (bt_get p (h_levels h)) as [l|] eqn:Hg; [|reflexivity].
    destruct (Z.leb_spec (l_total l) (reach ok r pls p)) as [Hle|Hle]; [|reflexivity].
    symmetry. pose proof (wf_get h _ _ Hw Hg) as []. pose proof (reach_bounds ok pls p r Hlw Hr).
    apply sumq_zero; [now apply eat_pos|]. rewrite eat_sum by (auto; lia). lia. }
  assert (Hcm : forall i p, fold_left (fun (c : gmap Z Z) i => delete i c) rmi (h_cache h) !! i = Some p ->
     h_cache h !! i = Some p).
  { intros i p H. apply fold_delete_Some in H. tauto. }
  unfold swept, half_cleanup, half_reinit_best. cbn [h_side h_levels h_cache h_best h_total].
  fold pls. fold L. fold rmp. fold rmi. fold L2.
  split; [|split; [reflexivity|split; [reflexivity|split; [exact Hcm|exact HQ]]]].
  constructor; cbn [h_side h_levels h_cache h_best h_total].
  - exact HL2s.
  - apply List.Forall_forall. intros [p l'] Hin. cbn [fst snd]. apply bt_In_get in Hin; [|exact HL2s].
    rewrite HL2get in Hin. destruct (bt_get p (h_levels h)) as [l|] eqn:Hg; [|discriminate].
    destruct (Z.leb_spec (l_total l) (reach ok r pls p)) as [Hle|Hle]; [discriminate|].
    injection Hin as <-. pose proof (wf_get h _ _ Hw Hg) as []. pose proof (reach_bounds ok pls p r Hlw Hr).
    assert (Hes : sumq (eat (reach ok r pls p) (l_orders l)) = l_total l - reach ok r pls p).
    { rewrite eat_sum by (auto; lia). lia. }
    constructor; cbn [l_price l_orders l_total]; auto.
    + intros E. rewrite E in Hes. unfold sumq in Hes. simpl in Hes. lia.
    + now apply eat_pos.
    + rewrite (eat_ids (reach ok r pls p)) in lw_nodup. apply NoDup_app in lw_nodup. tauto.
  - unfold L2. rewrite fold_remove_sum; [now rewrite HLsum|exact HLs|].
    intros p Hp. apply Hrmp in Hp as (l & Hg & Hle). unfold wget. rewrite HLget, Hg. cbn [l_total]. lia.
  - pose proof (hw_bound h Hw). pose proof (sweep_left_bounds ok pls r Hlw Hr). lia.
  - reflexivity.
  - intros i p. rewrite HQ, fold_delete_Some, (hw_cache h Hw i p).
    assert (Hids : forall q, In i (map fst (queue (h_levels h) q)) <->
       In i (eaten (reach ok r pls q) (queue (h_levels h) q)) \/
       In i (map fst (eat (reach ok r pls q) (queue (h_levels h) q)))).
    { intros q. rewrite (eat_ids (reach ok r pls q) (queue (h_levels h) q)) at 1. apply in_app_iff. }
    assert (Hrmi : In i rmi <-> exists q, In i (eaten (reach ok r pls q) (queue (h_levels h) q))).
    { unfold rmi. rewrite sweep_ids_In by auto. split.
      - intros (q & l & Hin & Hi). exists q. apply plevels_In in Hin.
        apply bt_In_get in Hin; [|apply Hw]. unfold queue. now rewrite Hin.
      - intros (q & Hi). unfold queue in Hi. destruct (bt_get q (h_levels h)) as [l|] eqn:Hg; [|destruct Hi].
        exists q, l. split; [|exact Hi]. apply plevels_In. now apply bt_get_In. }
    split.
    + intros [Hn Hi]. apply Hids in Hi as [Hi|Hi]; [|exact Hi]. exfalso. apply Hn, Hrmi. eauto.
    + intros Hi. split; [|apply Hids; now right].
      intros Hr'. apply Hrmi in Hr' as (q & Hq).
      assert (q = p) as ->.
      { assert (A : h_cache h !! i = Some q) by (apply (hw_cache h Hw), Hids; now left).
        assert (B : h_cache h !! i = Some p) by (apply (hw_cache h Hw), Hids; now right). congruence. }
      pose proof (wf_queue_nodup h p Hw) as Nd. rewrite (eat_ids (reach ok r pls p)) in Nd.
      apply NoDup_app in Nd as (_ & Hdis & _). apply (Hdis i); now apply elem_of_list_In.
Qed.

(** Which prices an incoming limit at [lim] accepts on side [s]. *)
Definition takes (s : side) (lim : Z) (p : Z) : bool :=
  match s with Ask => p <=? lim | Bid => lim <=? p end.

Lemma half_trade_limit_ok m h o :
  half_wf h -> lo_side o = opposite (h_side h) -> 0 <= lo_quantity o ->
  half_trade_limit m h o =
  if half_is_empty h || negb (takes (h_side h) (lo_price o) (h_best h)) then Ret (h, None)
  else
    let ok := takes (h_side h) (lo_price o) in
    Ret (swept ok (lo_quantity o) h,
         Some (sweep_hist ok (lo_quantity o) (plevels h), sweep_left ok (lo_quantity o) (plevels h))).
Proof.
  intros Hw Hs Hq. unfold half_trade_limit. rewrite Hs.
  assert (E1 : side_eqb (h_side h) (opposite (h_side h)) = false) by (destruct (h_side h); reflexivity).
  rewrite E1. cbn [orb].
  pose proof (plevels_lwf h Hw) as Hlw. pose proof (plevels_sum h) as Hsum. pose proof (hw_total h Hw) as Ht.
  unfold swept, takes, plevels in *. destruct (h_side h) eqn:Es; cbn [side_eqb andb orb].
  - rewrite orb_false_r. rewrite <- Z.ltb_antisym. destruct (half_is_empty h || (lo_price o <? h_best h)); [reflexivity|].
    rewrite ask_limit_loop_spec by (auto; lia). cbn zeta. cbn [obind app]. reflexivity.
  - rewrite orb_false_r. rewrite <- Z.ltb_antisym. destruct (half_is_empty h || (h_best h <? lo_price o)); [reflexivity|].
    rewrite bid_limit_loop_spec by (auto; lia). cbn zeta. cbn [obind app]. reflexivity.
Qed.

Lemma half_trade_market_ok m h o :
  half_wf h -> h_side h = Ask -> mo_side o = Bid -> 0 <= mo_quantity o ->
  half_trade_market m h o =
  if half_is_empty h then Ret (h, None)
  else Ret (swept any_price (mo_quantity o) h,
            Some (sweep_hist any_price (mo_quantity o) (plevels h),
                  sweep_left any_price (mo_quantity o) (plevels h))).
Proof.
  intros Hw Hs Ho Hq. unfold half_trade_market. rewrite Ho, Hs. cbn [side_eqb]. rewrite orb_false_r.
  destruct (half_is_empty h); [reflexivity|].
  pose proof (plevels_lwf h Hw) as Hlw. pose proof (plevels_sum h) as Hsum. pose proof (hw_total h Hw) as Ht.
  unfold swept, plevels in *. rewrite Hs in *.
  rewrite ask_market_loop_spec by (auto; lia). cbn zeta. cbn [obind app]. reflexivity.
Qed.
