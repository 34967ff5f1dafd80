(** QEngMatrix.v -- how vega by tenor and moneyness runs. *)
From Coq Require Import ZArith Arith Ascii String.
From Coq Require Import List Bool Lia Sorting.Sorted.
From Flocq Require Import Core IEEE754.BinarySingleNaN.
From Verif Require Import Base FloatModel KrxModel QDateModel QYearModel QPeriodModel QFindModel QFindProofs QInterpModel QDivModel QCurveModel QMoneyModel QBondModel QFutModel QInstModel QInstSpec QInstProps QMatchProps QVolModel QEngModel QEngSpec QEngProofs QEngBump QEngLadder QEngVega.
Import ListNotations.
Open Scope Z_scope.

Lemma walked_app : forall u b times money l m r m1 m2, walked u b times money m l m1 -> walked u b times money m1 r m2 -> walked u b times money m (l ++ r) m2.
Proof.
  intros u b times money l. induction l as [|[[i j] x] l IH]; intros m r m1 m2 A B; cbn [walked app] in *; [subst m1; exact B|]. destruct A as [A1 A2]. split; [exact A1|]. exact (IH _ _ _ _ A2 B).
Qed.
Lemma set_entry : forall A (v : list (list A)) i j row x i' j', nth_error v i = Some row -> entry (set_nth v i (set_nth row j x)) i' j' = match entry v i' j' with Some y => if Nat.eqb i' i && Nat.eqb j' j then Some x else Some y | None => None end.
Proof.
  intros A v i j row x i' j' R. unfold entry. destruct (Nat.eqb_spec i' i) as [->|N]; cbn [andb].
  - assert (L : (i < length v)%nat) by (apply nth_error_Some; congruence). rewrite nth_set_in by exact L. rewrite R. destruct (Nat.eqb_spec j' j) as [->|N].
    + destruct (nth_error row j) as [y|] eqn:E; [|apply nth_error_None; rewrite set_nth_len; apply nth_error_None; exact E]. apply nth_set_in. apply nth_error_Some. congruence.
    + rewrite nth_set_out by exact N. destruct (nth_error row j'); reflexivity.
  - rewrite nth_set_out by exact N. destruct (nth_error v i'); [destruct (nth_error l j'); reflexivity|reflexivity].
Qed.

Section Walk.
Context (cx : context) (is : list instrument) (C : coded is) (u : string) (b last : f32) (times money : list f32) (holders : list string).
Definition cells_only (c : string) (x : cell) : Prop := x = MatrixCell u /\ In c holders.
Lemma cells_ok : forall i j ups prevs l, incl l is -> forall acc s acc' s', cells i j b ups prevs acc l s = Ret (ROk acc', s') ->
  s' = s /\ (forall c, ~ In c (map code l) -> acc' c = acc c) /\
  forall x, In x l -> forall v, acc (code x) = Some v -> exists v' up npv, acc' (code x) = Some v' /\ ups (code x) = Some up /\ prevs (code x) = Some npv /\
    forall i' j', entry v' i' j' = match entry v i' j' with Some y => if Nat.eqb i' i && Nat.eqb j' j then Some (slope up npv b pct (notional x)) else Some y | None => None end.
Proof using C.
  intros i j ups prevs l. induction l as [|y l IH]; intros IN acc s acc' s' H; cbn [cells] in H.
  - apply done_ok in H. destruct H as [-> ->]. split; [reflexivity|]. split; [reflexivity|]. intros x [].
  - step H up s1 E. apply need_ok in E. destruct E as [U ->]. step H npv s1 E. apply need_ok in E. destruct E as [N ->]. step H v0 s1 E. apply need_ok in E. destruct E as [V ->]. step H rw0 s1 E. apply total_ok in E. destruct E as [R ->]. apply at_ret in R.
    assert (IN' : incl l is) by (intros z Z; apply IN; right; exact Z). destruct (IH IN' _ _ _ _ H) as (-> & A1 & A2). split; [reflexivity|]. split.
    + intros c NI. cbn [map] in NI. rewrite A1 by (intro; apply NI; right; assumption). apply put_other. intro. apply NI. left. congruence.
    + intros x I v AV. destruct (in_dec string_dec (code x) (map code l)) as [J|J].
      * apply in_map_iff in J. destruct J as (z & EZ & J). assert (z = x) by (apply C; [apply IN; right; exact J|apply IN; exact I|exact EZ]). subst z.
        destruct (string_dec (code x) (code y)) as [Q|Q].
        -- assert (x = y) by (apply C; [apply IN; exact I|apply IN; left; reflexivity|exact Q]). subst y. assert (v0 = v) by congruence. subst v0.
           destruct (A2 x J _ (put_same _ _ _ _)) as (v' & up' & npv' & R1 & R3 & R4 & R5). exists v', up', npv'. split; [exact R1|]. split; [exact R3|]. split; [exact R4|]. intros i' j'. rewrite R5. rewrite (set_entry _ v i j rw0 _ i' j' R). destruct (entry v i' j'); [|reflexivity]. destruct (Nat.eqb i' i && Nat.eqb j' j); reflexivity.
        -- apply (A2 x J v). rewrite put_other by exact Q. exact AV.
      * destruct I as [<-|I]; [|exfalso; apply J; apply in_map; exact I]. assert (v0 = v) by congruence. subst v0. rewrite A1 by exact J. eexists. exists up, npv. split; [apply put_same|]. split; [exact U|]. split; [exact N|]. intros i' j'. apply set_entry. exact R.
Qed.
Lemma store_matrices : forall acc s s', each (fun k => let* v := need (acc k) in edit k (set_matrix u v)) holders s = Ret (ROk tt, s') ->
  st_market s' = st_market s /\ st_action s' = st_action s /\ only cells_only s s' /\ forall k, In k holders -> exists v c, acc k = Some v /\ st_results s' k = Some c /\ ca_matrix c u = Some v.
Proof using Type.
  intros acc s s' H. refine (each_run _ _ _ _ _ H (fun pre t => st_market t = st_market s /\ st_action t = st_action s /\ only cells_only s t /\ forall k, In k pre -> exists v c, acc k = Some v /\ st_results t k = Some c /\ ca_matrix c u = Some v) _ _); [split; [reflexivity|split; [reflexivity|split; [apply only_refl|intros ? []]]]|].
  intros pre k post t t' L (M & A & O & J) ST. step ST v t1 E. apply need_ok in E. destruct E as [V ->]. pose proof (edit_ok _ _ _ _ _ ST) as (c & CC & Q). assert (II : In k holders) by (rewrite L; apply in_or_app; right; left; reflexivity).
  assert (O' : only cells_only t t'). { apply (only_edit _ _ _ _ _ ST); [reflexivity|]. intros c0 x X. destruct x as [| | | | |k0| |]; cbn; try reflexivity. unfold put. destruct (String.eqb_spec k0 u) as [->|]; [|reflexivity]. exfalso. apply X. split; [reflexivity|exact II]. }
  split; [subst t'; exact M|]. split; [subst t'; exact A|]. split; [exact (only_trans _ _ _ _ O O')|]. intros j J'. destruct (string_dec j k) as [->|N].
  - exists v, (set_matrix u v c). subst t'. cbn [st_results]. split; [exact V|]. split; [apply put_same|]. cbn. apply put_same.
  - apply in_app_or in J'. destruct J' as [J'|[<-|[]]]; [|contradiction N; reflexivity]. destruct (J j J') as (vj & cj & P1 & P2 & P3). exists vj, cj. split; [exact P1|]. split; [|exact P3]. subst t'. cbn [st_results]. rewrite put_other by exact N. exact P2.
Qed.

Context (s0 : state) (prevs0 : string -> option f32) (acc0 : string -> option (list (list f32))).
(** the price before a step *)
Definition started (x : instrument) (pre : list ((nat * nat) * market)) (p : f32) : Prop := match rev pre with [] => prevs0 (code x) = Some p | (_, m) :: _ => priced cx m x p end.
(** where the loop is after the steps *)
Record at_step (steps : list ((nat * nat) * market)) (prevs : string -> option f32) (acc : string -> option (list (list f32))) (s : state) : Prop := AtStep {
  as_action : st_action s = is;
  as_walked : walked u b times money (st_market s0) steps (st_market s);
  as_only : only cells_only s0 s;
  as_prevs : forall x, In x is -> match rev steps with [] => prevs (code x) = prevs0 (code x) | (_, m) :: _ => exists p, prevs (code x) = Some p /\ priced cx m x p end;
  as_else : forall c, ~ In c (map code is) -> acc c = acc0 c;
  as_value : forall x v0, In x is -> acc0 (code x) = Some v0 -> exists v, acc (code x) = Some v /\ (forall i j, ~ In (i, j) (map fst steps) -> entry v i j = entry v0 i j) /\ (forall i j, entry v0 i j <> None -> entry v i j <> None) /\
    forall pre i j m1 post, steps = pre ++ ((i, j), m1) :: post -> entry v0 i j <> None -> exists up down, priced cx m1 x up /\ started x pre down /\ entry v i j = Some (slope up down b pct (notional x));
  as_stored : steps <> [] -> forall k, In k holders -> exists v c, acc k = Some v /\ st_results s k = Some c /\ ca_matrix c u = Some v }.
Lemma started_ok : forall steps prevs acc s x p, at_step steps prevs acc s -> In x is -> prevs (code x) = Some p -> started x steps p.
Proof using Type.
  intros steps prevs acc s x p A I P. pose proof (as_prevs _ _ _ _ A x I) as Q. unfold started. destruct (rev steps) as [|[c m] r]; [congruence|]. destruct Q as (p' & Q1 & Q2). assert (p' = p) by congruence. subst p'. exact Q2.
Qed.
Lemma one_step : forall steps prevs acc s i j start stop lo hi ups acc' s1 s2, at_step steps prevs acc s -> ~ In (i, j) (map fst steps) ->
  nth_error (windows None times) i = Some (start, Some stop) -> nth_error (windows None money) j = Some (lo, Some hi) ->
  bump_vol u start (Some stop) lo (Some hi) b s = Ret (ROk tt, s1) -> get_npvs cx s1 = Ret (ROk ups, s1) -> cells i j b ups prevs acc is s1 = Ret (ROk acc', s1) -> each (fun k => let* v := need (acc' k) in edit k (set_matrix u v)) holders s1 = Ret (ROk tt, s2) ->
  at_step (steps ++ [((i, j), st_market s1)]) ups acc' s2.
Proof using C.
  intros steps prevs acc s i j start stop lo hi ups acc' s1 s2 A NI WT WM E1 E2 E3 E4. pose proof (started_ok steps prevs acc s) as ST. destruct (bump_vol_ok _ _ _ _ _ _ _ _ _ E1) as (B1 & R1 & A1). apply get_npvs_ok in E2; [|rewrite A1, (as_action _ _ _ _ A); exact C]. destruct E2 as [_ F]. rewrite A1, (as_action _ _ _ _ A) in F.
  destruct (cells_ok i j ups prevs is (incl_refl is) _ _ _ _ E3) as (_ & CE & CV). destruct (store_matrices _ _ _ E4) as (M2 & A2 & O2 & S2). split.
  - rewrite A2, A1. exact (as_action _ _ _ _ A).
  - rewrite M2. refine (walked_app _ _ _ _ _ _ _ _ _ (as_walked _ _ _ _ A) _). cbn [walked]. split; [exists start, (Some stop), lo, (Some hi); auto|reflexivity].
  - refine (only_trans _ _ s _ (as_only _ _ _ _ A) _). refine (only_trans _ _ s1 _ _ O2). apply only_results. exact R1.
  - intros x I. rewrite rev_app_distr. cbn [rev app]. destruct (F x I) as (p & P1 & P2). exists p. auto.
  - intros c N. rewrite CE by exact N. exact (as_else _ _ _ _ A c N).
  - intros x v0 I V0. destruct (as_value _ _ _ _ A x v0 I V0) as (v & V & K1 & K2 & K3). destruct (CV x I v V) as (v' & up & npv & V' & U & P & EN). exists v'. split; [exact V'|]. split; [|split].
    + intros i' j' N. rewrite map_app in N. rewrite EN. rewrite (K1 i' j') by (intro; apply N; apply in_or_app; left; assumption). destruct (entry v0 i' j'); [|reflexivity]. destruct (Nat.eqb_spec i' i) as [->|]; [|reflexivity]. destruct (Nat.eqb_spec j' j) as [->|]; [|reflexivity]. exfalso. apply N. apply in_or_app. right. left. reflexivity.
    + intros i' j' N. specialize (K2 i' j' N). rewrite EN. destruct (entry v i' j'); [|contradiction K2; reflexivity]. destruct (Nat.eqb i' i && Nat.eqb j' j); discriminate.
    + intros pre i' j' m1 post Q N. destruct post as [|q post'] using rev_ind.
      * apply app_inj_tail in Q. destruct Q as [<- Q]. assert (i' = i) by congruence. assert (j' = j) by congruence. assert (m1 = st_market s1) by congruence. subst i' j' m1. destruct (F x I) as (p & P1 & P2). assert (p = up) by congruence. subst p. exists up, npv. split; [exact P1|]. split; [exact (ST x npv A I P)|].
        rewrite EN. specialize (K2 i j N). destruct (entry v i j); [|contradiction K2; reflexivity]. rewrite !Nat.eqb_refl. reflexivity.
      * clear IHpost'. rewrite app_comm_cons, app_assoc in Q. apply app_inj_tail in Q. destruct Q as [Q _]. destruct (K3 pre i' j' m1 post' Q N) as (up' & down' & Z1 & Z2 & Z3). exists up', down'. split; [exact Z1|]. split; [exact Z2|]. rewrite EN, Z3.
        destruct (Nat.eqb_spec i' i) as [->|]; [|reflexivity]. destruct (Nat.eqb_spec j' j) as [->|]; [|reflexivity]. exfalso. apply NI. rewrite Q, map_app. apply in_or_app. right. left. reflexivity.
  - intros _ k K. exact (S2 k K).
Qed.
Lemma across_ok : forall i start stop order, nth_error (windows None times) i = Some (start, Some stop) -> NoDup order -> forall steps prevs acc s r s', at_step steps prevs acc s -> (forall j, In j order -> ~ In (i, j) (map fst steps)) ->
  across cx u b money is holders i start stop order prevs acc s = Ret (ROk r, s') -> exists more, map fst more = map (pair i) order /\ at_step (steps ++ more) (fst r) (snd r) s'.
Proof using C.
  intros i start stop order WT. induction order as [|j order IH]; intros ND steps prevs acc s r s' A NI H; cbn [across] in H.
  - apply done_ok in H. destruct H as [<- ->]. exists []. split; [reflexivity|]. rewrite app_nil_r. exact A.
  - inversion ND as [|? ? N1 N2]; subst. step H lo s1 E. apply total_ok in E. destruct E as [EB ->]. step H hi s1 E. apply total_ok in E. destruct E as [EA ->]. pose proof (before_ok _ _ _ _ EB EA) as WM.
    step H u1 s1 E1. destruct u1. step H ups s2 E2. assert (s2 = s1) by (destruct (bump_vol_ok _ _ _ _ _ _ _ _ _ E1) as (_ & _ & A1); apply get_npvs_ok in E2; [exact (proj1 E2)|rewrite A1, (as_action _ _ _ _ A); exact C]). subst s2.
    step H acc' s2 E3. assert (s2 = s1) by exact (proj1 (cells_ok i j ups prevs is (incl_refl is) _ _ _ _ E3)). subst s2. step H u3 s2 E4. destruct u3.
    pose proof (one_step _ _ _ _ i j _ _ _ _ _ _ _ _ A (NI j (or_introl eq_refl)) WT WM E1 E2 E3 E4) as A'. destruct (IH N2 _ _ _ _ r s' A') as (more & M1 & M2).
    + intros j' J Q. rewrite map_app in Q. apply in_app_or in Q. destruct Q as [Q|[Q|[]]]; [exact (NI j' (or_intror J) Q)|]. cbn in Q. assert (j' = j) by congruence. subst j'. contradiction.
    + exact H.
    + exists (((i, j), st_market s1) :: more). split; [cbn [map fst]; rewrite M1; reflexivity|]. rewrite <- app_assoc in M2. exact M2.
Qed.
Fixpoint visited (order : list nat) : list (nat * nat) :=
  match order with
  | [] => []
  | i :: order' => (if skips last (match i with O => None | S k => nth_error times k end) then [] else map (pair i) (seq 0 (length money))) ++ visited order'
  end.
Lemma visited_in : forall order p, In p (visited order) -> In (fst p) order.
Proof using Type.
  induction order as [|i order IH]; intros p H; cbn [visited] in H; [contradiction H|]. apply in_app_or in H. destruct H as [H|H]; [|right; exact (IH p H)]. destruct (skips _ _); [contradiction H|]. apply in_map_iff in H. destruct H as (j & <- & _). left. reflexivity.
Qed.
Lemma matrix_down_ok : forall order, NoDup order -> forall steps prevs acc s acc' s', at_step steps prevs acc s -> (forall i j, In i order -> ~ In (i, j) (map fst steps)) ->
  matrix_down cx u b last times money is holders order prevs acc s = Ret (ROk acc', s') -> exists more prevs', map fst more = visited order /\ at_step (steps ++ more) prevs' acc' s'.
Proof using C.
  intros order. induction order as [|i order IH]; intros ND steps prevs acc s acc' s' A NI H; cbn [matrix_down] in H.
  - apply done_ok in H. destruct H as [<- ->]. exists [], prevs. split; [reflexivity|]. rewrite app_nil_r. exact A.
  - inversion ND as [|? ? N1 N2]; subst. step H start s1 E. apply total_ok in E. destruct E as [EB ->]. step H stop s1 E. apply total_ok in E. destruct E as [EA ->]. pose proof (before_ok _ _ _ _ EB EA) as WT.
    assert (ST : start = match i with O => None | S k => nth_error times k end). { destruct (windows_inv _ _ _ _ _ _ WT) as (w & _ & _ & Q). exact Q. }
    cbn [visited]. rewrite <- ST. destruct (skips last start) eqn:SK.
    + destruct (IH N2 _ _ _ _ acc' s' A) as (more & prevs' & M1 & M2); [intros i' j I; apply NI; right; exact I|exact H|]. exists more, prevs'. split; [exact M1|exact M2].
    + step H r s1 E. destruct (across_ok i start stop _ WT (seq_NoDup _ 0) _ _ _ _ _ _ A (fun j _ => NI i j (or_introl eq_refl)) E) as (m1 & P1 & P2). destruct (IH N2 _ _ _ _ acc' s' P2) as (more & prevs' & M1 & M2).
      * intros i' j I Q. rewrite map_app in Q. apply in_app_or in Q. destruct Q as [Q|Q]; [exact (NI i' j (or_intror I) Q)|]. rewrite P1 in Q. apply in_map_iff in Q. destruct Q as (j' & Q & _). assert (i' = i) by congruence. subst i'. contradiction.
      * exact H.
      * exists (m1 ++ more), prevs'. split; [rewrite map_app, P1, M1; reflexivity|]. rewrite app_assoc. exact M2.
Qed.
End Walk.

Definition after_cell (p q : nat * nat) : Prop := (fst q < fst p)%nat \/ fst p = fst q /\ (snd p < snd q)%nat.
Lemma sorted_app : forall A (R : A -> A -> Prop) l r, StronglySorted R l -> StronglySorted R r -> (forall x y, In x l -> In y r -> R x y) -> StronglySorted R (l ++ r).
Proof.
  intros A R l r. induction l as [|x l IH]; intros L S B; [exact S|]. cbn [app]. apply StronglySorted_inv in L. destruct L as [L1 L2]. constructor; [apply IH; [exact L1|exact S|intros; apply B; [right|]; assumption]|]. rewrite List.Forall_forall in *. intros y I. apply in_app_or in I. destruct I as [I|I]; [exact (L2 y I)|apply B; [left; reflexivity|exact I]].
Qed.
Lemma row_sorted : forall i n k, StronglySorted after_cell (map (pair i) (seq k n)).
Proof.
  intros i n. induction n as [|n IH]; intro k; cbn [seq map]; constructor; [apply IH|]. rewrite List.Forall_forall. intros [a c] I. apply in_map_iff in I. destruct I as (x & Q & I). apply in_seq in I. right. cbn. split; congruence || (injection Q as <- <-; lia).
Qed.
Lemma visited_order : forall last times money k, (k <= length times)%nat -> StronglySorted after_cell (visited last times money (rev (seq 0 k))) /\
  forall i j, In (i, j) (visited last times money (rev (seq 0 k))) <-> (i < k)%nat /\ ~ tenor_skipped times last i /\ (j < length money)%nat.
Proof.
  intros last times money k. induction k as [|k IH]; intro L; [cbn; split; [constructor|intros; split; [intros []|lia]]|]. destruct (IH ltac:(lia)) as [S M]. rewrite seq_S, rev_app_distr. cbn [rev app visited Nat.add].
  destruct (nth_error times k) as [stop|] eqn:N; [|apply nth_error_None in N; lia]. pose proof (windows_nth _ times k None stop N) as W. pose proof (skips_iff times last k _ _ W) as SK. set (start := match k with O => None | S x => nth_error times x end) in *.
  assert (LOW : forall p, In p (visited last times money (rev (seq 0 k))) -> (fst p < k)%nat) by (intros [a c] I; apply M in I; cbn; lia). destruct (skips last start).
  - split; [exact S|]. cbn [app]. intros i j. rewrite M. split; [intros (A & B & D); repeat split; auto with arith|]. intros (A & B & D). repeat split; auto. assert (i <> k) by (intros ->; apply B; apply SK; reflexivity). lia.
  - split; [apply sorted_app; [apply row_sorted|exact S|]|].
    + intros x y I J. apply in_map_iff in I. destruct I as (c & <- & _). left. cbn. exact (LOW y J).
    + intros i j. split.
      * intro I. apply in_app_or in I. destruct I as [I|I]; [|apply M in I; destruct I as (A & B & D); repeat split; auto with arith]. apply in_map_iff in I. destruct I as (c & Q & I). apply in_seq in I. injection Q as <- <-. repeat split; [lia|intro Q; apply SK in Q; discriminate Q|lia].
      * intros (A & B & D). apply in_or_app. destruct (Nat.eq_dec i k) as [->|NE]; [left; apply in_map_iff; exists j; split; [reflexivity|apply in_seq; lia]|right; apply M; repeat split; auto; lia].
Qed.
Lemma put_all : forall A (z : A) is acc i, In i is -> fold_left (fun m x => put m (code x) z) is acc (code i) = Some z.
Proof.
  intros A z is. assert (K : forall is acc c, acc c = Some z -> fold_left (fun m x => put m (code x) z) is acc c = Some z) by (clear; induction is as [|x is IH]; intros acc c H; [exact H|]; cbn [fold_left]; apply IH; unfold put; destruct (String.eqb c (code x)); [reflexivity|exact H]).
  induction is as [|x is IH]; intros acc i I; [contradiction I|]. cbn [fold_left]. destruct I as [<-|I]; [apply K; apply put_same|apply IH; exact I].
Qed.
Lemma zero_entry : forall A (z : A) n m i j, entry (repeat (repeat z m) n) i j = if Nat.ltb i n && Nat.ltb j m then Some z else None.
Proof.
  intros A z n m i j. unfold entry. destruct (Nat.ltb_spec i n) as [L|L]; cbn [andb].
  - rewrite (nth_error_repeat _ L). destruct (Nat.ltb_spec j m) as [L'|L']; [apply nth_error_repeat; exact L'|apply nth_error_None; rewrite repeat_length; exact L'].
  - assert (Q : nth_error (repeat (repeat z m) n) i = None) by (apply nth_error_None; rewrite repeat_length; exact L). rewrite Q. reflexivity.
Qed.
Lemma pushed_in : forall xs l k, In k (fold_left (push_new String.eqb) xs l) <-> In k l \/ In k xs.
Proof.
  induction xs as [|x xs IH]; intros l k; cbn [fold_left]; [cbn; tauto|]. rewrite IH. unfold push_new. destruct (has String.eqb x l) eqn:H.
  - apply (has_in _ _ string_decides) in H. cbn. split; [tauto|]. intros [Q|[<-|Q]]; auto.
  - rewrite in_app_iff. cbn. tauto.
Qed.
Lemma walks_app : forall b times money r l m m1 m2, walks b times money l m m1 -> walks b times money r m1 m2 -> walks b times money (l ++ r) m m2.
Proof.
  intros b times money r l m m1 m2 L R. revert L. induction R as [m1|us u steps m1 x1 x2 x3 R IH W B]; intro L; [rewrite app_nil_r; exact L|]. rewrite app_assoc. exact (WalkMore _ _ _ _ _ _ _ _ _ _ (IH L) W B).
Qed.

Section All.
Context (cx : context) (eval : odt) (b : f32) (times money : list f32).
Definition matrix_reported (s s' : state) (u : string) (m0 : market) (i : instrument) (v : list (list f32)) (last : f32) (steps : list ((nat * nat) * market)) (m1 m2 : market) : Prop :=
  last_time (vega_users cx u) eval last /\ walked u b times money m0 steps m1 /\ vol_bumped u None None None None (gneg b) m1 m2 /\ cell_order times money last (map fst steps) /\ (steps <> [] -> reported_matrix s' i u v) /\
  (forall a c, entry v a c <> None <-> (a < length times)%nat /\ (c < length money)%nat) /\ (forall a c, (a < length times)%nat -> (c < length money)%nat -> tenor_skipped times last a -> entry v a c = Some (gof_Z 0)) /\
  forall pre a c m post, steps = pre ++ ((a, c), m) :: post -> exists up down, priced cx m i up /\ price_after cx s i pre down /\ entry v a c = Some (slope up down b pct (notional i)).
Lemma matrix_all_ok : coded (cx_insts cx) -> forall us, NoDup us -> forall holders acc s s', (forall k, In k holders -> exists i, In i (cx_insts cx) /\ code i = k) -> matrix_all cx eval b times money us holders acc s = Ret (ROk tt, s') ->
  walks b times money (List.filter (vega_used cx) us) (st_market s) (st_market s') /\ only (fun c x => exists u i, In u us /\ x = MatrixCell u /\ In i (cx_insts cx) /\ code i = c) s s' /\
  forall u i, In u us -> vega_users cx u i -> exists pre m0 m1 m2 v last steps, ~ In u pre /\ walks b times money pre (st_market s) m0 /\ matrix_reported s s' u m0 i v last steps m1 m2.
Proof using Type.
  intros CI us. induction us as [|u us IH]; intros ND holders acc s s' HH H; cbn [matrix_all] in H.
  - apply done_ok in H. destruct H as [_ ->]. split; [constructor|]. split; [apply only_refl|]. intros u i [].
  - inversion ND as [|? ? N1 N2]; subst. cbn [List.filter]. pose proof (vega_sel cx u) as SEL. unfold vega_used at 1. set (is := with_underlying (cx_insts cx) u ["Cash"; "Stock"; "Futures"]%string) in *.
    assert (C : coded is) by (apply (coded_sub (cx_insts cx)); [exact CI|]; intros i J; apply SEL in J; destruct J as [J _]; exact J). step H x s1 E. destruct x. apply set_action_ok in E. step H longest s2 E2. apply total_ok in E2. destruct E2 as [EL ->]. destruct is as [|i0 is0] eqn:ISE.
    + cbn [negb]. assert (EM : st_market s1 = st_market s /\ st_results s1 = st_results s) by (subst s1; split; reflexivity). destruct EM as [EM ER]. destruct (IH N2 holders acc s1 s' HH H) as (W & O & R). rewrite EM in W. split; [exact W|]. split.
      * apply (only_trans _ _ s1 _); [apply only_results; exact ER|]. eapply only_weaken; [|exact O]. intros c x (u' & i & I & Q). exists u', i. split; [right; exact I|exact Q].
      * intros u' i [<-|I] U; [apply SEL in U; contradiction U|]. destruct (R u' i I U) as (pre & m0 & m1 & m2 & v & last & steps & NI & WK & LT & W1 & B1 & CO & RM & SH & SZ & EN). exists pre, m0, m1, m2, v, last, steps. split; [exact NI|]. split; [rewrite <- EM; exact WK|].
        do 7 (split; [assumption|]). intros pre' a c m post Q. destruct (EN pre' a c m post Q) as (up & down & X1 & X2 & X3). exists up, down. split; [exact X1|]. split; [|exact X3]. unfold price_after in *. destruct (rev pre') as [|[? ?] ?]; [|exact X2]. unfold reported_npv, reported in *. rewrite ER in X2. exact X2.
    + cbn [negb]. rewrite <- ISE in *. assert (NE : is <> []) by (rewrite ISE; discriminate). assert (U0 : vega_users cx u i0) by (apply SEL; rewrite ISE; left; reflexivity). clear is0 ISE. pose proof (longest_time_ok eval is longest _ SEL NE EL) as LT.
      step H prevs s2 E2. destruct (npv_map_ok is C is (incl_refl is) _ _ _ _ E2) as (-> & _ & NP). step H acc' s2 E3. step H x s3 E4. destruct x. set (holders' := fold_left (push_new String.eqb) (map code is) holders) in *. set (acc0 := fold_left _ is acc) in *.
      assert (HH' : forall k, In k holders' -> exists i, In i (cx_insts cx) /\ code i = k). { intros k K. unfold holders' in K. apply pushed_in in K. destruct K as [K|K]; [exact (HH k K)|]. apply in_map_iff in K. destruct K as (i & <- & I). apply SEL in I. exists i. split; [exact (proj1 I)|reflexivity]. }
      assert (A0 : at_step cx is u b times money holders' s1 prevs acc0 [] prevs acc0 s1). { split; [subst s1; reflexivity|reflexivity|apply only_refl|reflexivity|reflexivity| |intro Q; contradiction Q; reflexivity]. intros x v0 I V0. exists v0. split; [exact V0|]. split; [reflexivity|]. split; [auto|]. intros [|? ?] ? ? ? ? Q; discriminate Q. }
      destruct (matrix_down_ok cx is C u b longest times money holders' s1 prevs acc0 (rev (seq 0 (length times))) (NoDup_rev (seq_NoDup _ _)) [] prevs acc0 s1 acc' s2 A0 (fun _ _ _ Q => Q) E3) as (steps & prevs' & VS & A). cbn [app] in A.
      destruct (visited_order longest times money (length times) (le_n _)) as [CO1 CO2]. rewrite <- VS in CO1, CO2. destruct (bump_vol_ok _ _ _ _ _ _ _ _ _ E4) as (B4 & R4 & _). destruct (IH N2 holders' acc' s3 s' HH' H) as (W & O & R).
      assert (EM : st_market s1 = st_market s /\ st_results s1 = st_results s) by (subst s1; split; reflexivity). destruct EM as [EM ER]. pose proof (as_walked _ _ _ _ _ _ _ _ _ _ _ _ _ _ A) as WK. rewrite EM in WK. assert (W0 : walks b times money [u] (st_market s) (st_market s3)) by exact (WalkMore _ _ _ [] u steps _ _ _ _ (WalkNone _ _ _ _) WK B4).
      set (P := fun c x => exists u' i, In u' (u :: us) /\ x = MatrixCell u' /\ In i (cx_insts cx) /\ code i = c). assert (O3 : only P s s3).
      { apply (only_trans _ _ s1 _); [apply only_results; exact ER|]. apply (only_trans _ _ s2 _); [|apply only_results; exact R4]. eapply only_weaken; [|exact (as_only _ _ _ _ _ _ _ _ _ _ _ _ _ _ A)]. intros c x (-> & K). destruct (HH' c K) as (i & I & Q). exists u, i. split; [left; reflexivity|auto]. }
      assert (O4 : only P s3 s') by (eapply only_weaken; [|exact O]; intros c x (u' & i & I & Q); exists u', i; split; [right; exact I|exact Q]).
      split; [exact (walks_app b times money _ [u] _ _ _ W0 W)|]. split; [exact (only_trans _ _ _ _ O3 O4)|]. intros u' i [<-|I] U.
      * assert (I : In i is) by (apply SEL; exact U). assert (Z0 : acc0 (code i) = Some (repeat (repeat (gof_Z 0) (length money)) (length times))) by (apply put_all; exact I). destruct (as_value _ _ _ _ _ _ _ _ _ _ _ _ _ _ A i _ I Z0) as (v & V & K1 & K2 & K3).
        assert (IN0 : forall a c, entry (repeat (repeat (gof_Z 0 : f32) (length money)) (length times)) a c <> None <-> (a < length times)%nat /\ (c < length money)%nat).
        { intros a c. rewrite zero_entry. destruct (Nat.ltb_spec a (length times)); destruct (Nat.ltb_spec c (length money)); cbn; split; intro Q; try lia; try discriminate; try (contradiction Q; reflexivity). }
        exists [], (st_market s), (st_market s2), (st_market s3), v, longest, steps. split; [intros []|]. split; [constructor|]. split; [exact LT|]. split; [exact WK|]. split; [exact B4|]. split; [split; [exact CO1|exact CO2]|]. split; [|split; [|split]].
        -- intro NS. destruct (as_stored _ _ _ _ _ _ _ _ _ _ _ _ _ _ A NS (code i)) as (v1 & c & Q1 & Q2 & Q3); [unfold holders'; apply pushed_in; right; apply in_map; exact I|]. assert (v1 = v) by congruence. subst v1. rewrite <- R4 in Q2. destruct (only_reads _ _ _ _ _ O Q2) as (c' & C1 & _ & C2). exists c'. split; [exact C1|]. rewrite <- Q3. apply (C2 (MatrixCell u)). intros (u' & i' & J & Q & _). injection Q as <-. contradiction.
        -- intros a c. split; [|intro Q; apply K2; apply IN0; exact Q]. intro Q. destruct (in_dec (fun p q : nat * nat => ltac:(decide equality; apply Nat.eq_dec)) (a, c) (map fst steps)) as [J|J]; [apply CO2 in J; tauto|]. rewrite (K1 a c J) in Q. apply IN0. exact Q.
        -- intros a c La Lc SK. rewrite K1 by (intro J; apply CO2 in J; destruct J as (_ & J & _); contradiction). rewrite zero_entry. destruct (Nat.ltb_spec a (length times)); [|lia]. destruct (Nat.ltb_spec c (length money)); [reflexivity|lia].
        -- intros pre a c m post Q. destruct (K3 pre a c m post Q) as (up & down & X1 & X2 & X3); [apply IN0; assert (J : In (a, c) (map fst steps)) by (rewrite Q, map_app; apply in_or_app; right; left; reflexivity); apply CO2 in J; tauto|]. exists up, down. split; [exact X1|]. split; [|exact X3].
           unfold started in X2. unfold price_after. destruct (rev pre) as [|[? ?] ?]; [|exact X2]. destruct (NP i I) as (p & P1 & P2). assert (p = down) by congruence. subst p. unfold reported_npv, reported in *. rewrite ER in P2. exact P2.
      * destruct (R u' i I U) as (pre & m0 & m1 & m2 & v & last & steps' & NI & WK' & LT' & W1 & B1 & CO & RM & SH & SZ & EN). exists (u :: pre), m0, m1, m2, v, last, steps'. split; [intros [Q|Q]; [subst u'; contradiction|contradiction]|]. split; [exact (walks_app b times money _ [u] _ _ _ W0 WK')|].
        do 7 (split; [assumption|]). intros pre' a c m post Q. destruct (EN pre' a c m post Q) as (up & down & X1 & X2 & X3). exists up, down. split; [exact X1|]. split; [|exact X3]. unfold price_after in *. destruct (rev pre') as [|[? ?] ?]; [|exact X2].
        apply (only_npv _ _ _ i down O3); [|exact X2]. intros (? & ? & _ & Q' & _). discriminate Q'.
Qed.
End All.
