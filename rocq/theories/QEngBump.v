(** QEngBump.v -- how the greeks of one bump run. *)
From Coq Require Import ZArith Arith Ascii String.
From Coq Require Import List Bool Lia.
From Flocq Require Import Core IEEE754.BinarySingleNaN.
From Verif Require Import Base FloatModel KrxModel QDateModel QYearModel QPeriodModel QFindModel QInterpModel QDivModel QCurveModel QMoneyModel QBondModel QFutModel QInstModel QInstSpec QInstProps QMatchProps QVolModel QEngModel QEngSpec QEngProofs.
Import ListNotations.
Open Scope Z_scope.

(** ** The bumps *)
Lemma bump_curve_ok : forall cx n t1 t2 b s y s', bump_curve cx n t1 t2 b s = Ret (ROk y, s') -> curve_bumped (cx_exp cx) n t1 t2 b (st_market s) (st_market s') /\ st_results s' = st_results s /\ st_action s' = st_action s.
Proof.
  intros cx n t1 t2 b s y s' H. unfold bump_curve in H. step H s0 s1 E. apply get_ok in E. destruct E as [-> ->]. step H c s1 E. apply need_ok in E. destruct E as [C ->]. step H r s1 E. apply total_ok in E. destruct E as [R ->]. step H x s1 E. apply set_market_ok in E. apply pure_ok in H. destruct H as [H ->]. subst s1. cbn [st_market st_results st_action].
  destruct r as [r c']. cbn [fst snd] in *. destruct y. split; [|auto]. exists c, c'. split; [exact C|]. split; [rewrite R; congruence|]. split; [reflexivity|]. repeat split.
Qed.
Lemma bump_vol_ok : forall u t1 t2 l r b s y s', bump_vol u t1 t2 l r b s = Ret (ROk y, s') -> vol_bumped u t1 t2 l r b (st_market s) (st_market s') /\ st_results s' = st_results s /\ st_action s' = st_action s.
Proof.
  intros u t1 t2 l r b s y s' H. unfold bump_vol in H. step H s0 s1 E. apply get_ok in E. destruct E as [-> ->]. step H v s1 E. apply need_ok in E. destruct E as [V ->]. destruct (env_of (st_market s) u v) as [e|] eqn:EV; [|discriminate H]. step H x s1 E. apply total_ok in E. destruct E as [X ->].
  step H z s1 E. apply set_market_ok in E. destruct x as [o|]; [|discriminate H]. apply done_ok in H. destruct H as [_ ->]. subst s1. cbn [st_market st_results st_action]. split; [|auto]. exists v, e, o. repeat split; assumption.
Qed.
Lemma bump_div_ok : forall u d1 d2 b s y s', bump_div u d1 d2 b s = Ret (ROk y, s') -> div_bumped u d1 d2 b (st_market s) (st_market s') /\ st_results s' = st_results s /\ st_action s' = st_action s.
Proof.
  intros u d1 d2 b s y s' H. unfold bump_div in H. step H s0 s1 E. apply get_ok in E. destruct E as [-> ->]. destruct (mk_dividend (st_market s) u) as [k|] eqn:K; [|discriminate H]. destruct (nth_error (w_dividends (mk_world (st_market s))) k) as [v|] eqn:V; [|discriminate H].
  step H r s1 E. apply total_ok in E. destruct E as [R ->]. step H z s1 E. apply set_market_ok in E. apply pure_ok in H. destruct H as [H ->]. subst s1. cbn [st_market st_results st_action]. destruct r as [r v']. cbn [fst snd] in *. destruct y. split; [|auto].
  exists k, v, v'. split; [exact K|]. split; [exact V|]. split; [rewrite R; congruence|]. split; [intro j; exact (nth_set _ _ _ _ _ j V)|]. repeat split.
Qed.

(** ** One greek of one key *)
Section Greek.
Context (cx : context) (g : greek) (select : string -> rresult (list instrument)) (bump : string -> f32 -> act unit) (b unit : f32) (B : string -> f32 -> market -> market -> Prop).
Hypothesis bump_ok : forall k x s y s', bump k x s = Ret (ROk y, s') -> B k x (st_market s) (st_market s') /\ st_results s' = st_results s /\ st_action s' = st_action s.
Lemma store_greek_ok : forall k ups i t t', store_greek g k b unit ups i t = Ret (ROk tt, t') ->
  st_market t' = st_market t /\ st_action t' = st_action t /\ only (fun c x => c = code i /\ x = GreekCell g k) t t' /\ exists up npv, ups (code i) = Some up /\ reported_npv t i npv /\ reported_greek t' i g k (slope up npv b unit (notional i)).
Proof using Type.
  intros k ups i t t' H. unfold store_greek in H. step H up t1 E. apply need_ok in E. destruct E as [U ->]. step H npv t1 E. apply npv_of_ok in E. destruct E as [N ->]. pose proof (edit_ok _ _ _ _ _ H) as (c & C & Q).
  split; [subst t'; reflexivity|]. split; [subst t'; reflexivity|]. split. { apply (only_edit _ _ _ _ _ H); [reflexivity|]. intros c0 x X. apply set_greek_else. intro. apply X. auto. }
  exists up, npv. split; [exact U|]. split. { destruct N as (c0 & r & A1 & A2 & A3). exists c0. split; [exact A1|]. exists r. auto. }
  exists (set_greek g k (slope up npv b unit (notional i)) c). subst t'. cbn [st_results]. split; [apply put_same|apply set_greek_at].
Qed.
Definition greek_cells (is : list instrument) (k : string) (c : string) (x : cell) : Prop := x = GreekCell g k /\ exists i, In i is /\ code i = c.
Lemma greek_of_ok : forall k s s', (forall is, select k = ROk is -> coded is) -> greek_of cx g select bump b unit k s = Ret (ROk tt, s') ->
  exists is, select k = ROk is /\ only (greek_cells is k) s s' /\ (is = [] -> st_market s' = st_market s) /\
    (is <> [] -> exists m2, B k b (st_market s) m2 /\ B k (gneg b) m2 (st_market s') /\
       forall i, In i is -> exists up npv, priced cx m2 i up /\ reported_npv s i npv /\ reported_greek s' i g k (slope up npv b unit (notional i))).
Proof using bump_ok.
  intros k s s' C H. unfold greek_of in H. step H is s1 E. apply pure_ok in E. destruct E as [SEL ->]. assert (SEL' : select k = ROk is) by congruence. specialize (C is SEL'). exists is. split; [exact SEL'|]. step H x s1 E. destruct x. apply set_action_ok in E.
  destruct is as [|i0 is0] eqn:ISE. { apply done_ok in H. destruct H as [_ ->]. subst s1. split; [apply only_results; reflexivity|]. split; [reflexivity|]. intro Q. contradiction Q; reflexivity. }
  rewrite <- ISE in *. assert (NE : is <> []) by (rewrite ISE; discriminate). clear i0 is0 ISE SEL. step H x s2 E2. destruct x. destruct (bump_ok _ _ _ _ _ E2) as (B1 & R1 & A1). step H ups s3 E3. apply get_npvs_ok in E3; [|rewrite A1; subst s1; exact C]. destruct E3 as [-> F].
  step H x s4 E4. destruct x. destruct (bump_ok _ _ _ _ _ H) as (B2 & R2 & _). subst s1. cbn [st_market st_results st_action] in *. rewrite A1 in F.
  assert (A : st_market s4 = st_market s2 /\ only (greek_cells is k) s2 s4 /\ forall i, In i is -> exists up npv, priced cx (st_market s2) i up /\ reported_npv s2 i npv /\ reported_greek s4 i g k (slope up npv b unit (notional i))).
  { refine (each_run _ _ _ _ _ E4 (fun pre t => st_market t = st_market s2 /\ only (greek_cells is k) s2 t /\ forall i, In i pre -> exists up npv, priced cx (st_market s2) i up /\ reported_npv s2 i npv /\ reported_greek t i g k (slope up npv b unit (notional i))) _ _); [split; [reflexivity|split; [apply only_refl|intros ? []]]|].
    intros pre i post t t' L (M & O & J) ST. destruct (store_greek_ok _ _ _ _ _ ST) as (M' & _ & O' & up & npv & U & N & G). assert (II : In i is) by (rewrite L; apply in_or_app; right; left; reflexivity).
    assert (O'' : only (greek_cells is k) t t') by (apply (only_weaken (fun c x => c = code i /\ x = GreekCell g k)); [intros c x [-> ->]; split; [reflexivity|exists i; auto]|exact O']).
    destruct (F i II) as (up' & P & U'). assert (up' = up) by congruence. subst up'. assert (N2 : reported_npv s2 i npv) by (apply (only_npv _ _ _ i npv O); [intros [Q _]; discriminate Q|exact N]).
    split; [congruence|]. split; [exact (only_trans _ _ _ _ O O'')|]. intros j J'. apply in_app_or in J'. destruct J' as [J'|[<-|[]]].
    - destruct (J j J') as (upj & npvj & P1 & P2 & P3). destruct (string_dec (code j) (code i)) as [Q|Q].
      + assert (IJ : In j is) by (rewrite L; apply in_or_app; left; exact J'). assert (j = i) by (apply C; assumption). subst j. exists up, npv. auto.
      + exists upj, npvj. split; [exact P1|]. split; [exact P2|]. apply (only_greek _ _ _ j g k _ O'); [intros [Q' _]; contradiction|exact P3].
    - exists up, npv. auto. }
  destruct A as (M4 & O4 & J4). split; [|split; [intro Q; contradiction|]].
  - intro c. pose proof (O4 c) as Q. rewrite R1 in Q. rewrite R2. exact Q.
  - intros _. exists (st_market s2). split; [exact B1|]. split; [rewrite <- M4; exact B2|]. intros i I. destruct (J4 i I) as (up & npv & P1 & P2 & P3). exists up, npv. split; [exact P1|]. split.
    + unfold reported_npv, reported in *. rewrite R1 in P2. exact P2.
    + unfold reported_greek, reported in *. rewrite R2. exact P3.
Qed.
(** ** All keys *)
Definition used (k : string) : bool := match select k with ROk [] => false | _ => true end.
Lemma greeks_ok : forall ks s s', NoDup ks -> (forall k is, In k ks -> select k = ROk is -> coded is) -> each (greek_of cx g select bump b unit) ks s = Ret (ROk tt, s') ->
  trail B b (List.filter used ks) (st_market s) (st_market s') /\ only (fun c x => exists k is, In k ks /\ select k = ROk is /\ greek_cells is k c x) s s' /\
  forall k, In k ks -> exists is, select k = ROk is /\ forall i, In i is -> exists pre post m1 m2 up npv, ks = pre ++ k :: post /\ trail B b (List.filter used pre) (st_market s) m1 /\ B k b m1 m2 /\ priced cx m2 i up /\ reported_npv s i npv /\
    reported_greek s' i g k (slope up npv b unit (notional i)).
Proof using bump_ok.
  intros ks s s' ND C H. set (P := fun c x => exists k is, In k ks /\ select k = ROk is /\ greek_cells is k c x).
  refine (each_run _ _ _ _ _ H (fun done t => trail B b (List.filter used done) (st_market s) (st_market t) /\ only P s t /\
    forall k, In k done -> exists is, select k = ROk is /\ forall i, In i is -> exists pre post m1 m2 up npv, ks = pre ++ k :: post /\ trail B b (List.filter used pre) (st_market s) m1 /\ B k b m1 m2 /\ priced cx m2 i up /\ reported_npv s i npv /\
    reported_greek t i g k (slope up npv b unit (notional i))) _ _); [split; [apply TrailNone|split; [apply only_refl|intros ? []]]|].
  intros pre k post t t' L (T & O & J) ST. assert (IK : In k ks) by (rewrite L; apply in_or_app; right; left; reflexivity). destruct (greek_of_ok k t t' (fun is => C k is IK) ST) as (is & SEL & O' & N1 & N2).
  assert (OP : only P t t') by (apply (only_weaken (greek_cells is k)); [intros c x Q; exists k, is; auto|exact O']).
  split; [|split; [exact (only_trans _ _ _ _ O OP)|]].
  - rewrite filter_app. cbn [List.filter]. unfold used at 2. rewrite SEL. destruct is as [|i0 is]; [rewrite app_nil_r, (N1 eq_refl); exact T|]. destruct (N2 ltac:(discriminate)) as (m2 & B1 & B2 & _). exact (TrailMore B b _ k _ _ _ _ T B1 B2).
  - intros k' I. apply in_app_or in I. destruct I as [I|[<-|[]]].
    + destruct (J k' I) as (is' & S' & J'). exists is'. split; [exact S'|]. intros i II. destruct (J' i II) as (pre' & post' & m1 & m2 & up & npv & A1 & A2 & A3 & A4 & A5 & A6). exists pre', post', m1, m2, up, npv. do 5 (split; [assumption|]).
      apply (only_greek _ _ _ i g k' _ O'); [|exact A6]. intros [Q _]. injection Q as <-. assert (NK : ~ In k' pre). { rewrite L in ND. apply NoDup_remove_2 in ND. intro. apply ND. apply in_or_app. left. assumption. } contradiction.
    + exists is. split; [exact SEL|]. intros i I. destruct is as [|i0 is0] eqn:ISE; [contradiction I|]. rewrite <- ISE in *. destruct (N2 ltac:(rewrite ISE; discriminate)) as (m2 & B1 & _ & G). destruct (G i I) as (up & npv & A1 & A2 & A3).
      exists pre, post, (st_market t), m2, up, npv. split; [exact L|]. split; [exact T|]. split; [exact B1|]. split; [exact A1|]. split; [|exact A3]. apply (only_npv _ _ _ i npv O); [|exact A2]. intros (k0 & is0' & _ & _ & Q & _). discriminate Q.
Qed.
End Greek.

(** ** Where a trail leads *)
Lemma snoc_not_in : forall A (l : list A) x, NoDup (l ++ [x]) -> NoDup l /\ ~ In x l.
Proof. intros A l x H. pose proof (NoDup_remove _ _ _ H) as [A1 A2]. rewrite app_nil_r in *. auto. Qed.
Lemma curves_trail : forall f_exp b ns m m', trail (fun n => curve_bumped f_exp n None None) b ns m m' -> NoDup ns -> curves_nudged f_exp b ns m m'.
Proof.
  intros f_exp b ns m m' T. induction T as [m|ns n m m1 m2 m3 T IH B1 B2]; intro ND.
  - do 4 (split; [reflexivity|]). intro n. split; [reflexivity|intros []].
  - apply snoc_not_in in ND. destruct ND as [ND NI]. destruct (IH ND) as (W1 & W2 & W3 & W4 & W5). destruct B1 as (c & c1 & C & BU & P1 & V1 & V2 & V3 & V4). destruct B2 as (c1' & c2 & C' & BU' & P2 & U1 & U2 & U3 & U4).
    split; [congruence|]. split; [congruence|]. split; [congruence|]. split; [congruence|]. intro x. destruct (W5 x) as [A1 A2]. rewrite P2, P1. destruct (String.eqb_spec x n) as [->|NE].
    + split; [intro Q; exfalso; apply Q; apply in_or_app; right; left; reflexivity|]. intros _. rewrite P1, String.eqb_refl in C'. apply some_inj in C'. subst c1'. exists c, c1, c2. rewrite A1 in C by exact NI. auto.
    + split; intro Q.
      * apply A1. intro. apply Q. apply in_or_app. left. assumption.
      * apply in_app_or in Q. destruct Q as [Q|[Q|[]]]; [exact (A2 Q)|congruence].
Qed.
Lemma env_same : forall m m' u v, mk_world m' = mk_world m -> mk_equity m' = mk_equity m -> mk_curve m' = mk_curve m -> env_of m' u v = env_of m u v.
Proof. intros m m' u v W E C. unfold env_of, equity. rewrite W, E, C. reflexivity. Qed.
Lemma env_entry : forall m u v v', vt_coll v' = vt_coll v -> vt_borrow v' = vt_borrow v -> env_of m u v' = env_of m u v.
Proof. intros m u v v' A B. unfold env_of. rewrite A, B. reflexivity. Qed.
Lemma vols_trail : forall b us m m', trail (fun u => vol_bumped u None None None None) b us m m' -> NoDup us -> vols_nudged b us m m'.
Proof.
  intros b us m m' T. induction T as [m|us u m m1 m2 m3 T IH B1 B2]; intro ND.
  - do 4 (split; [reflexivity|]). intro n. split; [reflexivity|intros []].
  - apply snoc_not_in in ND. destruct ND as [ND NI]. destruct (IH ND) as (W1 & W2 & W3 & W4 & W5). destruct B1 as (v & e & o1 & C & EV & BU & P1 & V1 & V2 & V3 & V4). destruct B2 as (v' & e' & o2 & C' & EV' & BU' & P2 & U1 & U2 & U3 & U4).
    split; [congruence|]. split; [congruence|]. split; [congruence|]. split; [congruence|]. intro x. destruct (W5 x) as [A1 A2]. rewrite P2, P1. destruct (String.eqb_spec x u) as [->|NE].
    + split; [intro Q; exfalso; apply Q; apply in_or_app; right; left; reflexivity|]. intros _. rewrite P1, String.eqb_refl in C'. apply some_inj in C'. subst v'. cbn [vt_surface vt_coll vt_borrow] in *. rewrite A1 in C by exact NI.
      assert (EM : env_of m u v = Some e) by (rewrite <- EV; symmetry; apply env_same; congruence). assert (EM' : e' = e). { rewrite (env_entry _ _ v) in EV' by reflexivity. rewrite (env_same m1 m2) in EV' by congruence. congruence. } subst e'. exists v, e, o1, o2. auto 6.
    + split; intro Q.
      * apply A1. intro. apply Q. apply in_or_app. left. assumption.
      * apply in_app_or in Q. destruct Q as [Q|[Q|[]]]; [exact (A2 Q)|congruence].
Qed.
Lemma divs_trail : forall b us m m', trail (fun u => div_bumped u None None) b us m m' -> NoDup us -> divs_apart m -> divs_nudged b us m m'.
Proof.
  intros b us m m' T. induction T as [m|us u m m1 m2 m3 T IH B1 B2]; intros ND AP.
  - do 8 (split; [reflexivity|]). intro k. split; [reflexivity|intros u []].
  - apply snoc_not_in in ND. destruct ND as [ND NI]. destruct (IH ND AP) as (W1 & W2 & W3 & W4 & W5 & W6 & W7 & W8 & W9). destruct B1 as (k & v & v1 & K & C & BU & P1 & V1 & V2 & V3 & V4 & V5 & V6 & V7 & V8). destruct B2 as (k' & v1' & v2 & K' & C' & BU' & P2 & U1 & U2 & U3 & U4 & U5 & U6 & U7 & U8).
    do 8 (split; [congruence|]). assert (k' = k) by congruence. subst k'. rewrite P1, Nat.eqb_refl in C'. apply some_inj in C'. subst v1'. rewrite W6 in K. intro j. destruct (W9 j) as [A1 A2]. rewrite P2, P1. destruct (Nat.eqb_spec j k) as [->|NE].
    + split; [intro Q; exfalso; apply (Q u); [apply in_or_app; right; left; reflexivity|exact K]|]. intros u' I KU. assert (u' = u) by exact (AP u' u k KU K). subst u'. exists v, v1, v2. rewrite A1 in C; [auto|]. intros x X Q. apply NI. rewrite <- (AP x u k Q K). exact X.
    + split.
      * intro Q. apply A1. intros x X. apply Q. apply in_or_app. left. exact X.
      * intros x X Q. apply in_app_or in X. destruct X as [X|[X|[]]]; [exact (A2 x X Q)|]. subst x. congruence.
Qed.
