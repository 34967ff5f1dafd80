(** QEngLadder.v -- how ladders run. *)
From Coq Require Import ZArith Arith Ascii String.
From Coq Require Import List Bool Lia.
From Flocq Require Import Core IEEE754.BinarySingleNaN.
From Verif Require Import Base FloatModel KrxModel QDateModel QYearModel QPeriodModel QFindModel QInterpModel QDivModel QCurveModel QMoneyModel QBondModel QFutModel QInstModel QInstSpec QInstProps QMatchProps QVolModel QEngModel QEngSpec QEngProofs QEngBump.
Import ListNotations.
Open Scope Z_scope.

Lemma trail_app : forall K (B : K -> f32 -> market -> market -> Prop) b ks2 m1 m2, trail B b ks2 m1 m2 -> forall ks1 m, trail B b ks1 m m1 -> trail B b (ks1 ++ ks2) m m2.
Proof. intros K B b ks2 m1 m2 T. induction T as [m1|ks k m1 m2 m3 m4 T IH B1 B2]; intros ks1 m T1; [rewrite app_nil_r; exact T1|]. rewrite app_assoc. exact (TrailMore B b _ k _ _ _ _ (IH _ _ T1) B1 B2). Qed.
Lemma trail_one : forall K (B : K -> f32 -> market -> market -> Prop) b k m1 m2 m3, B k b m1 m2 -> B k (gneg b) m2 m3 -> trail B b [k] m1 m3.
Proof. intros K B b k m1 m2 m3 B1 B2. exact (TrailMore B b [] k m1 m1 m2 m3 (TrailNone B b m1) B1 B2). Qed.
Lemma trail_map : forall K L (f : K -> L) (B : L -> f32 -> market -> market -> Prop) b ks m m', trail (fun k => B (f k)) b ks m m' -> trail B b (map f ks) m m'.
Proof. intros K L f B b ks m m' T. induction T as [m|ks k m m1 m2 m3 T IH B1 B2]; [constructor|]. rewrite map_app. cbn [map]. exact (TrailMore B b _ _ _ _ _ _ IH B1 B2). Qed.
Lemma set_nth_len : forall A (l : list A) k x, length (set_nth l k x) = length l.
Proof. induction l as [|a l IH]; intros [|k] x; cbn; congruence. Qed.
Lemma nth_set_in : forall A (l : list A) k x, (k < length l)%nat -> nth_error (set_nth l k x) k = Some x.
Proof. intros A l k x L. destruct (nth_error l k) as [y|] eqn:E; [|apply nth_error_None in E; lia]. rewrite (nth_set _ _ _ _ _ _ E), Nat.eqb_refl. reflexivity. Qed.
Lemma nth_set_out : forall A (l : list A) k x j, j <> k -> nth_error (set_nth l k x) j = nth_error l j.
Proof.
  intros A l k x j N. destruct (nth_error l k) as [y|] eqn:E; [rewrite (nth_set _ _ _ _ _ _ E); destruct (Nat.eqb_spec j k); [contradiction|reflexivity]|].
  assert (Q : set_nth l k x = l); [|rewrite Q; reflexivity]. clear N j. revert k E. induction l as [|a l IH]; intros [|k] E; cbn in *; try reflexivity; [discriminate E|]. rewrite (IH k E). reflexivity.
Qed.
Lemma not_over : forall is d ex, maturing_over is d ex = [] <-> ~ alive_after (fun i => In i is /\ ~ In (type_name i) ex) d.
Proof.
  intros is d ex. pose proof (proj2 (c171_over is d ex)) as Q. split; intro H.
  - intros (i & [A B] & C). assert (In i (maturing_over is d ex)) by (apply Q; auto). rewrite H in *. contradiction.
  - destruct (maturing_over is d ex) as [|i l] eqn:E; [reflexivity|]. exfalso. apply H. destruct (proj1 (Q i) ltac:(left; reflexivity)) as (A & B & C). exists i. auto.
Qed.
Lemma over : forall is d ex, maturing_over is d ex <> [] <-> alive_after (fun i => In i is /\ ~ In (type_name i) ex) d.
Proof.
  intros is d ex. split; intro H; [|intro Q; apply not_over in Q; contradiction]. destruct (maturing_over is d ex) as [|i l] eqn:E; [contradiction H; reflexivity|].
  destruct (proj1 (proj2 (c171_over is d ex) i)) as (A & B & C); [rewrite E; left; reflexivity|]. exists i. auto.
Qed.
Lemma windows_len : forall W (ws : list W) p, length (windows p ws) = length ws.
Proof. induction ws as [|w ws IH]; intro p; cbn; [reflexivity|]. rewrite IH. reflexivity. Qed.
Lemma zeros_at : forall n is acc x, In x is -> fold_left (fun m i => put m (code i) (repeat (gof_Z 0 : f32) n)) is acc (code x) = Some (repeat (gof_Z 0) n).
Proof.
  intros n is. induction is as [|i is IH]; intros acc x I; [contradiction I|]. cbn [fold_left]. destruct (in_dec string_dec (code x) (map code is)) as [J|J].
  - apply in_map_iff in J. destruct J as (y & E & J). rewrite <- E. apply IH. exact J.
  - destruct I as [<-|I]; [|exfalso; apply J; apply in_map; exact I].
    assert (K : forall l (m : string -> option (list f32)) c, ~ In c (map code l) -> fold_left (fun m i => put m (code i) (repeat (gof_Z 0 : f32) n)) l m c = m c).
    { intros l. induction l as [|y l IHl]; intros m c NI; [reflexivity|]. cbn [fold_left map] in *. rewrite IHl by (intro; apply NI; right; assumption). apply put_other. intro. apply NI. left. congruence. }
    rewrite K by exact J. apply put_same.
Qed.

Section Ladder.
Context (cx : context) {W : Type} (is : list instrument) (C : coded is) (b unit : f32) (ex : list string) (bump : option W -> option W -> f32 -> act Datatypes.unit) (B : option W * option W -> f32 -> market -> market -> Prop).
Hypothesis bump_ok : forall t1 t2 x s y s', bump t1 t2 x s = Ret (ROk y, s') -> B (t1, t2) x (st_market s) (st_market s') /\ st_results s' = st_results s /\ st_action s' = st_action s.
Lemma rungs_ok : forall i ups l, incl l is -> forall acc s acc' s', rungs i b unit ups acc l s = Ret (ROk acc', s') ->
  s' = s /\ (forall c, ~ In c (map code l) -> acc' c = acc c) /\
  forall x, In x l -> forall v, acc (code x) = Some v -> exists v' up npv, acc' (code x) = Some v' /\ length v' = length v /\ ups (code x) = Some up /\ reported_npv s x npv /\
    ((i < length v)%nat -> nth_error v' i = Some (slope up npv b unit (notional x))) /\ (forall j, j <> i -> nth_error v' j = nth_error v j).
Proof using C.
  intros i ups l. induction l as [|y l IH]; intros IN acc s acc' s' H; cbn [rungs] in H.
  - apply done_ok in H. destruct H as [-> ->]. split; [reflexivity|]. split; [reflexivity|]. intros x [].
  - step H up s1 E. apply need_ok in E. destruct E as [U ->]. step H npv s1 E. apply npv_of_ok in E. destruct E as [N ->]. step H v0 s1 E. apply need_ok in E. destruct E as [V ->].
    assert (IN' : incl l is) by (intros z Z; apply IN; right; exact Z). destruct (IH IN' _ _ _ _ H) as (-> & A1 & A2). split; [reflexivity|]. split.
    + intros c NI. cbn [map] in NI. rewrite A1 by (intro; apply NI; right; assumption). apply put_other. intro. apply NI. left. congruence.
    + assert (NP : reported_npv s y npv) by (destruct N as (c0 & r & Q1 & Q2 & Q3); exists c0; split; [exact Q1|]; exists r; auto).
      intros x I v AV. destruct (in_dec string_dec (code x) (map code l)) as [J|J].
      * apply in_map_iff in J. destruct J as (z & EZ & J). assert (z = x) by (apply C; [apply IN; right; exact J|apply IN; exact I|exact EZ]). subst z.
        destruct (string_dec (code x) (code y)) as [Q|Q].
        -- assert (x = y) by (apply C; [apply IN; exact I|apply IN; left; reflexivity|exact Q]). subst y. assert (v0 = v) by congruence. subst v0.
           destruct (A2 x J _ (put_same _ _ _ _)) as (v' & up' & npv' & R1 & R2 & R3 & R4 & R5 & R6). exists v', up', npv'. rewrite set_nth_len in *. do 5 (split; [auto|]). intros j NJ. rewrite R6 by exact NJ. apply nth_set_out. exact NJ.
        -- apply (A2 x J v). rewrite put_other by exact Q. exact AV.
      * destruct I as [<-|I]; [|exfalso; apply J; apply in_map; exact I]. assert (v0 = v) by congruence. subst v0. rewrite A1 by exact J. eexists. exists up, npv. split; [apply put_same|]. split; [apply set_nth_len|]. split; [exact U|]. split; [exact NP|].
        split; [intro L; apply nth_set_in; exact L|intros j NJ; apply nth_set_out; exact NJ].
Qed.
Definition alive : instrument -> Prop := fun i => In i is /\ ~ In (type_name i) ex.
(** what the ladder of one instrument says *)
Definition rung_ok (s : state) (wins : list (option W * option W)) (x : instrument) (j : nat) (y : option f32) : Prop :=
  exists k m1 m2 up npv, nth_error wins j = Some k /\ trail B b (firstn j wins) (st_market s) m1 /\ B k b m1 m2 /\ priced cx m2 x up /\ reported_npv s x npv /\ y = Some (slope up npv b unit (notional x)).
Lemma climb_ok : forall ends i p acc s acc' s', st_action s = is -> climb cx bump b unit ex is i p ends acc s = Ret (ROk acc', s') ->
  let wins := windows p (map fst ends) in let dates := map snd ends in
  st_results s' = st_results s /\ st_action s' = is /\
  exists n, (forall j, (j < n)%nat <-> (j < length ends)%nat /\ rung_reached alive dates j) /\ trail B b (firstn n wins) (st_market s) (st_market s') /\
  forall x, In x is -> forall v, acc (code x) = Some v -> (i + length ends <= length v)%nat -> exists v', acc' (code x) = Some v' /\ length v' = length v /\
    (forall j, (j < n)%nat -> rung_ok s wins x j (nth_error v' (i + j))) /\ (forall j, (j < i \/ i + n <= j)%nat -> nth_error v' j = nth_error v j).
Proof using C bump_ok.
  induction ends as [|[w d] ends IH]; intros i p acc s acc' s' AC H wins dates; cbn [climb] in H.
  - apply done_ok in H. destruct H as [-> ->]. split; [reflexivity|]. split; [exact AC|]. exists 0%nat. split; [intro j; cbn; lia|]. split; [constructor|]. intros x I v AV _. exists v. split; [exact AV|]. split; [reflexivity|]. split; [intros j J; lia|reflexivity].
  - step H u1 s1 E1. destruct (bump_ok _ _ _ _ _ _ E1) as (B1 & R1 & A1). step H ups s2 E2. apply get_npvs_ok in E2; [|rewrite A1, AC; exact C]. destruct E2 as [-> F]. rewrite A1, AC in F.
    step H acc1 s3 E3. destruct (rungs_ok i ups is (incl_refl is) _ _ _ _ E3) as (-> & _ & RG). step H u3 s3 E4. destruct (bump_ok _ _ _ _ _ _ E4) as (B2 & R2 & A2).
    set (k := (p, Some w)) in *. assert (WD : wins = k :: windows (Some w) (map fst ends)) by reflexivity. set (rest := windows (Some w) (map fst ends)) in *.
    assert (T1 : trail B b [k] (st_market s) (st_market s3)) by (eapply trail_one; eassumption).
    assert (FIRST : forall x, In x is -> forall v, acc (code x) = Some v -> (i < length v)%nat -> exists v1, acc1 (code x) = Some v1 /\ length v1 = length v /\ rung_ok s wins x 0 (nth_error v1 i) /\ forall j, j <> i -> nth_error v1 j = nth_error v j).
    { intros x I v AV L. destruct (RG x I v AV) as (v1 & up & npv & Q1 & Q2 & Q3 & Q4 & Q5 & Q6). exists v1. split; [exact Q1|]. split; [exact Q2|]. split; [|exact Q6]. destruct (F x I) as (up' & P & U). assert (up' = up) by congruence. subst up'.
      exists k, (st_market s), (st_market s1), up, npv. split; [rewrite WD; reflexivity|]. split; [constructor|]. split; [exact B1|]. split; [exact P|]. split; [unfold reported_npv, reported in *; rewrite <- R1; exact Q4|]. exact (Q5 L). }
    assert (DD : forall j, rung_reached alive dates (S j) <-> alive_after alive d /\ rung_reached alive (map snd ends) j).
    { intro j. split.
      - intro Q. split; [apply (Q 0%nat d); [lia|reflexivity]|]. intros l e L NE. apply (Q (S l) e); [lia|exact NE].
      - intros [Q1 Q2] l e L NE. destruct l as [|l]; [cbn in NE; injection NE as <-; exact Q1|]. apply (Q2 l e); [lia|exact NE]. }
    destruct (maturing_over is d ex) as [|o os] eqn:MO.
    + apply done_ok in H. destruct H as [-> ->]. split; [congruence|]. split; [congruence|]. exists 1%nat. assert (NA : ~ alive_after alive d) by (apply not_over; exact MO). split.
      { intro j. split; [intro J; assert (j = 0)%nat by lia; subst j; split; [cbn; lia|]; intros l e L; lia|]. intros [_ J]. destruct j as [|j]; [lia|]. apply DD in J. destruct J as [J _]. contradiction. }
      split; [rewrite WD; cbn [firstn]; exact T1|]. intros x I v AV L. cbn [length] in L. destruct (FIRST x I v AV ltac:(lia)) as (v1 & Q1 & Q2 & Q3 & Q4). exists v1. split; [exact Q1|]. split; [exact Q2|]. split.
      * intros j J. assert (j = 0)%nat by lia. subst j. rewrite Nat.add_0_r. exact Q3.
      * intros j J. apply Q4. lia.
    + assert (NA : alive_after alive d) by (apply over; rewrite MO; discriminate). clear MO o os. rewrite Nat.add_1_r in H. assert (AC3 : st_action s3 = is) by congruence. destruct (IH _ _ _ _ _ _ AC3 H) as (R4 & A4 & n & N1 & N2 & N3). split; [congruence|]. split; [exact A4|]. exists (S n). split.
      { intro j. destruct j as [|j]; [split; [intros _; split; [cbn; lia|]; intros l e L; lia|lia]|]. rewrite DD. split.
        - intro J. destruct (proj1 (N1 j) ltac:(lia)) as [J1 J2]. split; [cbn [length]; lia|auto].
        - intros [J1 [_ J2]]. cbn [length] in J1. assert (j < n)%nat by (apply N1; split; [lia|exact J2]). lia. }
      split; [rewrite WD; cbn [firstn]; exact (trail_app _ B b _ _ _ N2 [k] _ T1)|]. intros x I v AV L. cbn [length] in L. destruct (FIRST x I v AV ltac:(lia)) as (v1 & Q1 & Q2 & Q3 & Q4). destruct (N3 x I v1 Q1 ltac:(lia)) as (v' & P1 & P2 & P3 & P4). exists v'. split; [exact P1|]. split; [congruence|]. split.
      * intros [|j] J; [rewrite Nat.add_0_r, P4 by lia; exact Q3|]. destruct (P3 j ltac:(lia)) as (k' & m1 & m2 & up & npv & K1 & K2 & K3 & K4 & K5 & K6). exists k', m1, m2, up, npv. split; [rewrite WD; exact K1|]. split; [rewrite WD; cbn [firstn]; exact (trail_app _ B b _ _ _ K2 [k] _ T1)|].
        split; [exact K3|]. split; [exact K4|]. split; [unfold reported_npv, reported in *; rewrite <- R1, <- R2; exact K5|]. rewrite <- K6. f_equal. lia.
      * intros j J. rewrite P4 by lia. apply Q4. lia.
Qed.
End Ladder.

Lemma reached_iff : forall (U V : instrument -> Prop) ends j, (forall i, U i <-> V i) -> rung_reached U ends j <-> rung_reached V ends j.
Proof. intros U V ends j H. split; intros R l d L N; destruct (R l d L N) as (i & A & M); exists i; (split; [apply H; exact A|exact M]). Qed.

Section Ladders.
Context (cx : context) {W : Type} (g : ladder) (select : string -> rresult (list instrument)) (bump : string -> option W -> option W -> f32 -> act Datatypes.unit) (b unit : f32) (ex : list string) (ends : list (W * odt)) (users : string -> instrument -> Prop)
  (B : string * (option W * option W) -> f32 -> market -> market -> Prop) (ks : list string).
Hypothesis bump_ok : forall k t1 t2 x s y s', bump k t1 t2 x s = Ret (ROk y, s') -> B (k, (t1, t2)) x (st_market s) (st_market s') /\ st_results s' = st_results s /\ st_action s' = st_action s.
Hypothesis select_ok : forall k is, In k ks -> select k = ROk is -> coded is /\ forall i, In i is <-> users k i.
Hypothesis users_ok : forall k i, users k i -> ~ In (type_name i) ex.
Let wins := windows None (map fst ends).
Let dates := map snd ends.
Definition ladder_cells (k c : string) (x : cell) : Prop := x = LadderCell g k /\ exists i, users k i /\ code i = c.
Lemma ladder_of_ok : forall k s s', In k ks -> ladder_of cx g select bump b unit ex ends k s = Ret (ROk tt, s') ->
  only (ladder_cells k) s s' /\ exists n, (forall j, (j < n)%nat <-> (j < length dates)%nat /\ (exists i, users k i) /\ rung_reached (users k) dates j) /\
  trail B b (map (pair k) (firstn n wins)) (st_market s) (st_market s') /\
  forall i, users k i -> exists v, reported_ladder s' i g k v /\ length v = length dates /\
    forall j, (j < length dates)%nat ->
      (rung_reached (users k) dates j -> exists w m1 m2 up npv, nth_error wins j = Some w /\ trail B b (map (pair k) (firstn j wins)) (st_market s) m1 /\ B (k, w) b m1 m2 /\ priced cx m2 i up /\ reported_npv s i npv /\ nth_error v j = Some (slope up npv b unit (notional i))) /\
      (~ rung_reached (users k) dates j -> nth_error v j = Some (gof_Z 0)).
Proof using bump_ok select_ok users_ok.
  intros k s s' IK H. unfold ladder_of in H. step H is s1 E. apply pure_ok in E. destruct E as [SEL ->]. assert (SEL' : select k = ROk is) by congruence. clear SEL. destruct (select_ok k is IK SEL') as [C US]. step H x s1 E. destruct x. apply set_action_ok in E.
  destruct is as [|i0 is0] eqn:ISE.
  { apply done_ok in H. destruct H as [_ ->]. subst s1. split; [apply only_results; reflexivity|]. exists 0%nat. split; [intro j; split; [lia|intros (_ & (i & U) & _); apply US in U; contradiction U]|]. split; [cbn; constructor|]. intros i U. apply US in U. contradiction U. }
  rewrite <- ISE in *. assert (NE : exists i, users k i) by (exists i0; apply US; rewrite ISE; left; reflexivity). clear i0 is0 ISE. step H acc s2 E2.
  destruct (climb_ok cx is C b unit ex (bump k) (fun w => B (k, w)) ltac:(intros; eapply bump_ok; eassumption) ends 0 None _ s1 acc s2 ltac:(subst s1; reflexivity) E2) as (R2 & _ & n & N1 & N2 & N3). subst s1. cbn [st_market st_results] in *. fold wins dates in N1, N2, N3.
  assert (AL : forall i, alive is ex i <-> users k i). { intro i. unfold alive. rewrite US. split; [tauto|]. intro U. split; [exact U|exact (users_ok k i U)]. }
  assert (LD : length dates = length ends) by apply map_length.
  assert (A : st_market s' = st_market s2 /\ only (ladder_cells k) s2 s' /\ forall i, In i is -> exists v, acc (code i) = Some v /\ reported_ladder s' i g k v).
  { refine (each_run _ _ _ _ _ H (fun pre t => st_market t = st_market s2 /\ only (ladder_cells k) s2 t /\ forall i, In i pre -> exists v, acc (code i) = Some v /\ reported_ladder t i g k v) _ _); [split; [reflexivity|split; [apply only_refl|intros ? []]]|].
    intros pre i post t t' L (M & O & J) ST. step ST v t1 E. apply need_ok in E. destruct E as [V ->]. pose proof (edit_ok _ _ _ _ _ ST) as (c & CC & Q). assert (II : In i is) by (rewrite L; apply in_or_app; right; left; reflexivity).
    assert (O' : only (ladder_cells k) t t') by (apply (only_edit _ _ _ _ _ ST); [reflexivity|]; intros c0 x X; apply set_ladder_else; intro; apply X; split; [assumption|exists i; split; [apply US; exact II|reflexivity]]).
    assert (RI : reported_ladder t' i g k v) by (exists (set_ladder g k v c); subst t'; cbn [st_results]; split; [apply put_same|apply set_ladder_at]).
    split; [subst t'; exact M|]. split; [exact (only_trans _ _ _ _ O O')|]. intros j J'. apply in_app_or in J'. destruct J' as [J'|[<-|[]]]; [|exists v; auto]. destruct (J j J') as (vj & P1 & P2). exists vj. split; [exact P1|].
    destruct (string_dec (code j) (code i)) as [Q'|Q']; [assert (j = i) by (apply C; [rewrite L; apply in_or_app; left; exact J'|exact II|exact Q']); subst j; assert (vj = v) by congruence; subst vj; exact RI|].
    destruct P2 as (cj & P3 & P4). exists cj. subst t'. cbn [st_results]. rewrite put_other by exact Q'. auto. }
  destruct A as (M3 & O3 & J3). split; [intro c; pose proof (O3 c) as Q; rewrite R2 in Q; exact Q|]. exists n. split; [intro j; rewrite (N1 j), LD, (reached_iff _ _ dates j AL); tauto|]. split; [rewrite M3; exact (trail_map _ _ (pair k) B b _ _ _ N2)|].
  intros i U. assert (I : In i is) by (apply US; exact U). destruct (J3 i I) as (v & V & RV). exists v. split; [exact RV|].
  destruct (N3 i I _ (zeros_at (length ends) is (fun _ => None) i I) ltac:(rewrite repeat_length; lia)) as (v' & V' & LV & Q1 & Q2). assert (v' = v) by congruence. subst v'. rewrite repeat_length in LV. split; [congruence|]. intros j J. rewrite LD in J. split.
  - intro R. assert (JN : (j < n)%nat) by (apply N1; split; [exact J|apply (reached_iff _ _ dates j AL); exact R]). destruct (Q1 j JN) as (w & m1 & m2 & up & npv & K1 & K2 & K3 & K4 & K5 & K6). exists w, m1, m2, up, npv. split; [exact K1|]. split; [exact (trail_map _ _ (pair k) B b _ _ _ K2)|]. auto.
  - intro R. rewrite Q2; [apply nth_error_repeat; exact J|]. right. cbn. destruct (le_lt_dec n j) as [Q|Q]; [exact Q|]. exfalso. apply R. apply (reached_iff _ _ dates j AL). apply N1. exact Q.
Qed.
Lemma ladders_ok : NoDup ks -> forall s s', each (ladder_of cx g select bump b unit ex ends) ks s = Ret (ROk tt, s') -> laddered cx g B b unit users (map fst ends) dates ks s s'.
Proof using bump_ok select_ok users_ok.
  intros ND s s' H. unfold laddered. fold wins.
  assert (J : (exists climbed, map fst climbed = ks /\ rungs_climbed users dates climbed /\ trail B b (visits wins climbed) (st_market s) (st_market s')) /\ only (fun c x => exists k, In k ks /\ ladder_cells k c x) s s' /\
    forall k i, In k ks -> users k i -> exists v, reported_ladder s' i g k v /\ length v = length dates /\ forall j, (j < length dates)%nat ->
      (rung_reached (users k) dates j -> exists climbed w m1 m2 up npv, ~ In k (map fst climbed) /\ rungs_climbed users dates climbed /\ nth_error wins j = Some w /\
         trail B b (visits wins climbed ++ map (pair k) (firstn j wins)) (st_market s) m1 /\ B (k, w) b m1 m2 /\ priced cx m2 i up /\ reported_npv s i npv /\ nth_error v j = Some (slope up npv b unit (notional i))) /\
      (~ rung_reached (users k) dates j -> nth_error v j = Some (gof_Z 0))).
  { refine (each_run _ _ _ _ _ H (fun pre t => (exists climbed, map fst climbed = pre /\ rungs_climbed users dates climbed /\ trail B b (visits wins climbed) (st_market s) (st_market t)) /\ only (fun c x => exists k, In k ks /\ ladder_cells k c x) s t /\
    forall k i, In k pre -> users k i -> exists v, reported_ladder t i g k v /\ length v = length dates /\ forall j, (j < length dates)%nat ->
      (rung_reached (users k) dates j -> exists climbed w m1 m2 up npv, ~ In k (map fst climbed) /\ rungs_climbed users dates climbed /\ nth_error wins j = Some w /\
         trail B b (visits wins climbed ++ map (pair k) (firstn j wins)) (st_market s) m1 /\ B (k, w) b m1 m2 /\ priced cx m2 i up /\ reported_npv s i npv /\ nth_error v j = Some (slope up npv b unit (notional i))) /\
      (~ rung_reached (users k) dates j -> nth_error v j = Some (gof_Z 0))) _ _).
    { split; [exists []; split; [reflexivity|]; split; [constructor|cbn; constructor]|]. split; [apply only_refl|intros ? ? []]. }
    intros pre k post t t' L ((cl & CF & CC & CT) & O & JJ) ST. assert (IK : In k ks) by (rewrite L; apply in_or_app; right; left; reflexivity). assert (NK : ~ In k pre) by (rewrite L in ND; apply NoDup_remove_2 in ND; intro; apply ND; apply in_or_app; left; assumption).
    destruct (ladder_of_ok k t t' IK ST) as (O' & n & N1 & N2 & N3).
    assert (O'' : only (fun c x => exists k, In k ks /\ ladder_cells k c x) t t') by (apply (only_weaken (ladder_cells k)); [intros c x Q; exists k; auto|exact O']).
    split; [|split; [exact (only_trans _ _ _ _ O O'')|]].
    - exists (cl ++ [(k, n)]). split; [rewrite map_app, CF; reflexivity|]. split; [apply Forall_app; split; [exact CC|constructor; [exact N1|constructor]]|]. unfold visits. rewrite flat_map_app. cbn [flat_map fst snd]. rewrite app_nil_r. exact (trail_app _ B b _ _ _ N2 _ _ CT).
    - intros k' i I U. apply in_app_or in I. destruct I as [I|[<-|[]]].
      + destruct (JJ k' i I U) as (v & (c & V1 & V2) & LV & Q). exists v. split; [|split; [exact LV|exact Q]]. specialize (O' (code i)). rewrite V1 in O'. unfold reported_ladder, reported. destruct (st_results t' (code i)) as [c'|]; [|contradiction O'].
        exists c'. split; [reflexivity|]. rewrite <- V2. destruct O' as [_ O']. apply (O' (LadderCell g k')). intros [Q' _]. apply NK. congruence.
      + destruct (N3 i U) as (v & V & LV & Q). exists v. split; [exact V|]. split; [exact LV|]. intros j J. destruct (Q j J) as [Q1 Q2]. split; [|exact Q2]. intro R. destruct (Q1 R) as (w & m1 & m2 & up & npv & K1 & K2 & K3 & K4 & K5 & K6).
        exists cl, w, m1, m2, up, npv. split; [rewrite CF; exact NK|]. split; [exact CC|]. split; [exact K1|]. split; [exact (trail_app _ B b _ _ _ K2 _ _ CT)|]. split; [exact K3|]. split; [exact K4|]. split; [|exact K6].
        apply (only_npv _ _ _ i npv O); [|exact K5]. intros (k0 & _ & Q' & _). discriminate Q'. }
  destruct J as (J1 & J2 & J3). split; [exact J1|]. split; [|exact J3]. apply (only_weaken (fun c x => exists k, In k ks /\ ladder_cells k c x)); [|exact J2]. intros c x (k & I & -> & i & U & <-). exists i, k. auto.
Qed.
End Ladders.
