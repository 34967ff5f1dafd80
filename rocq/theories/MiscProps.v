(** MiscProps.v -- C211 to C214. *)
From Coq Require Import ZArith Ascii String.
From Coq Require Import List Bool Lia Permutation.
From Verif Require Import Base KrxModel QMoneyModel QSwapProps MiscModel MiscSpec.
Import ListNotations.
Open Scope Z_scope.
Open Scope list_scope.

(** ** C211 *)
Definition entries : list (string * string) := flat_map (fun g => map (fun c => (c, snd g)) (fst g)) tr_groups.
Definition put (m : string -> option string) (e : string * string) : string -> option string := fun x => if String.eqb x (fst e) then Some (snd e) else m x.
Lemma tr_entries : tr_map = fold_left put entries (fun _ => None).
Proof. reflexivity. Qed.
Lemma put_out : forall es m x, ~ In x (map fst es) -> fold_left put es m x = m x.
Proof.
  induction es as [|[c i] es IH]; intros m x N; [reflexivity|]. cbn [fold_left]. rewrite IH by (intro I; apply N; right; exact I). unfold put. cbn [fst snd]. destruct (String.eqb_spec x c) as [->|E]; [exfalso; apply N; left; reflexivity|reflexivity].
Qed.
Lemma put_all : forall es m x i, NoDup (map fst es) -> (forall y, In y (map fst es) -> m y = None) -> (fold_left put es m x = Some i <-> In (x, i) es \/ m x = Some i).
Proof.
  induction es as [|[c j] es IH]; intros m x i N M; [cbn [fold_left In]; tauto|]. cbn [map fst] in N. inversion N as [|? ? N1 N2]; subst. cbn [fold_left].
  destruct (String.eqb_spec x c) as [->|E].
  - rewrite put_out by exact N1. unfold put. cbn [fst snd]. rewrite String.eqb_refl. cbn [In]. split.
    + intro Q. left. left. congruence.
    + intros [[Q|Q]|Q]; [congruence|contradiction N1; exact (in_map fst _ _ Q)|rewrite (M c (or_introl eq_refl)) in Q; discriminate Q].
  - rewrite IH; [|exact N2|].
    + unfold put. cbn [fst snd In]. apply String.eqb_neq in E. rewrite E. apply String.eqb_neq in E. split; [intros [Q|Q]; auto|]. intros [[Q|Q]|Q]; auto. exfalso. apply E. congruence.
    + intros y I. unfold put. cbn [fst snd]. destruct (String.eqb_spec y c) as [->|F]; [contradiction|]. apply M. right. exact I.
Qed.
Lemma entries_once : NoDup (map fst entries).
Proof.
  assert (D : forall l : list string, (fix nd l := match l with [] => true | x :: l' => negb (existsb (String.eqb x) l') && nd l' end) l = true -> NoDup l).
  { induction l as [|x l IH]; intro H; [constructor|]. apply andb_true_iff in H. destruct H as [H1 H2]. constructor; [|exact (IH H2)]. intro I. apply negb_true_iff in H1. assert (X : existsb (String.eqb x) l = true) by (apply existsb_exists; exists x; split; [exact I|apply String.eqb_refl]). congruence. }
  apply D. vm_compute. reflexivity.
Qed.
Lemma tr_listed : forall c i, tr_map c = Some i <-> In (c, i) entries.
Proof. intros c i. rewrite tr_entries, put_all; [split; [intros [Q|Q]; [exact Q|discriminate Q]|auto]|exact entries_once|reflexivity]. Qed.
(** no code is listed twice: the order of the insertions does not matter *)
Theorem c211_once : NoDup (map fst (flat_map (fun g => map (fun c => (c, snd g)) (fst g)) tr_groups)) /\
  (forall c i, tr_map c = Some i <-> exists g, In g tr_groups /\ In c (fst g) /\ snd g = i) /\
  forall gs, Permutation gs tr_groups -> forall c, fold_left (fun m g => fold_left (fun m c x => if String.eqb x c then Some (snd g) else m x) (fst g) m) gs (fun _ => None) c = tr_map c.
Proof.
  split; [exact entries_once|]. split.
  - intros c i. rewrite tr_listed. unfold entries. rewrite in_flat_map. split; intros (g & I & J); exists g; (split; [exact I|]).
    + apply in_map_iff in J. destruct J as (d & E & K). injection E as -> ->. auto.
    + destruct J as [J <-]. apply in_map_iff. exists c. auto.
  - intros gs P c.
    assert (E : forall gs m, fold_left (fun m g => fold_left (fun m c x => if String.eqb x c then Some (snd g) else m x) (fst g) m) gs m = fold_left put (flat_map (fun g => map (fun c => (c, snd g)) (fst g)) gs) m).
    { clear. induction gs as [|[cs i] gs IH]; intro m; [reflexivity|]. cbn [fold_left flat_map fst snd]. rewrite fold_left_app, IH. f_equal. clear. revert m. induction cs as [|c cs IH]; intro m; [reflexivity|]. cbn [map fold_left]. rewrite <- IH. reflexivity. }
    rewrite E. assert (PE : Permutation (flat_map (fun g => map (fun c => (c, snd g)) (fst g)) gs) entries) by (apply Permutation_flat_map; exact P). set (es := flat_map _ gs) in *.
    assert (ND : NoDup (map fst es)) by (apply (Permutation_NoDup (Permutation_sym (Permutation_map fst PE))); exact entries_once).
    assert (Q : forall i, fold_left put es (fun _ => None) c = Some i <-> tr_map c = Some i).
    { intro i. rewrite tr_listed, put_all; [|exact ND|reflexivity]. split; [intros [X|X]; [exact (Permutation_in _ PE X)|discriminate X]|intro X; left; exact (Permutation_in _ (Permutation_sym PE) X)]. }
    destruct (fold_left put es _ c) as [i|] eqn:F; [symmetry; apply Q; reflexivity|]. destruct (tr_map c) as [i|] eqn:G; [|reflexivity]. apply Q in F; [discriminate F|exact i] || (pose proof (proj2 (Q i) eq_refl) as X; discriminate X).
Qed.
(** what a code says is what its interface is for *)
Theorem c211_rule : forall c i, tr_map c = Some i -> may_be c i.
Proof.
  intros c i H. apply tr_listed in H. unfold entries in H. cbn [tr_groups flat_map map fst snd app In] in H.
  Ltac small := first [lia|unfold security, bond_market, ten_levels; tauto|unfold ten_levels; lia].
  Ltac with_n n := first [exact (derivative_trade n ltac:(small))|exact (derivative_quote_5 n ltac:(small) ltac:(small))|exact (derivative_both_5 n ltac:(small) ltac:(small))|exact (derivative_quote_10 n ltac:(small))|exact (derivative_both_10 n ltac:(small))].
  Ltac with_m m := first [exact (security_quote m ltac:(small))|exact (security_trade 1 m ltac:(small) ltac:(small))|exact (security_trade 2 m ltac:(small) ltac:(small))|exact (security_trade 3 m ltac:(small) ltac:(small))|exact (security_trade 4 m ltac:(small) ltac:(small))
    |exact (security_lp 2 m ltac:(small) ltac:(small))|exact (security_lp 3 m ltac:(small) ltac:(small))|exact (security_lp 4 m ltac:(small) ltac:(small))|exact (bond_trade m ltac:(small))|exact (bond_quote m ltac:(small))|exact (bond_both m ltac:(small))].
  repeat (destruct H as [H|H]; [injection H as <- <-; first [with_m "B"%string|with_m "K"%string|with_m "M"%string|with_m "S"%string|with_m "Q"%string|with_m "X"%string
    |with_n 1%nat|with_n 2%nat|with_n 3%nat|with_n 4%nat|with_n 5%nat|with_n 6%nat|with_n 7%nat|with_n 8%nat|with_n 9%nat|with_n 10%nat|with_n 11%nat|with_n 12%nat|with_n 13%nat|with_n 14%nat|with_n 15%nat|with_n 16%nat]|]).
  contradiction H.
Qed.
(** every derivative has a trade and a quote code, and all but the 14th one for both *)
Theorem c211_derivatives : forall n, (1 <= n <= 16)%nat -> (exists i, tr_map (trade_code n "F"%string) = Some i) /\ (exists i, tr_map (quote_code n "F"%string) = Some i) /\ (n <> 14%nat -> exists i, tr_map (both_code n "F"%string) = Some i).
Proof.
  intros n N. assert (C : In n (seq 1 16)) by (apply in_seq; lia). cbn [seq In] in C.
  repeat (destruct C as [<-|C]; [split; [eexists; vm_compute; reflexivity|split; [eexists; vm_compute; reflexivity|intro X; try (contradiction X; reflexivity); eexists; vm_compute; reflexivity]]|]). contradiction C.
Qed.
(** REFUTED: the derivative 14 has none for both *)
Theorem c211_both_refuted : exists n, (1 <= n <= 16)%nat /\ (exists i, tr_map (trade_code n "F"%string) = Some i) /\ (exists i, tr_map (quote_code n "F"%string) = Some i) /\ tr_map (both_code n "F"%string) = None.
Proof. exists 14%nat. split; [lia|]. split; [eexists; vm_compute; reflexivity|]. split; [eexists; vm_compute; reflexivity|vm_compute; reflexivity]. Qed.

(** ** C212 *)
Definition lazy_ok (l : lazy) (es : list event) : Prop :=
  match lz_cell l with
  | Empty => (forall t s, ~ In (Made t s) es) /\ (forall t s, ~ In (Reads t s) es) /\ forall t, lz_reader l t <> Making
  | Busy u => (forall t s, ~ In (Made t s) es) /\ (forall t s, ~ In (Reads t s) es) /\ forall t, lz_reader l t = Making <-> t = u
  | Full s => (exists t l1 l2, es = l1 ++ Made t s :: l2 /\ (forall t' s', ~ In (Made t' s') (l1 ++ l2)) /\ (forall t' s', ~ In (Reads t' s') l1)) /\ (forall t s', In (Reads t s') es -> s' = s) /\ forall t, lz_reader l t <> Making
  end /\ forall t s, lz_reader l t = Holds s -> lz_cell l = Full s.
Lemma set_same : forall f t r, set_reader f t r t = r. Proof. intros. unfold set_reader. rewrite Nat.eqb_refl. reflexivity. Qed.
Lemma set_other : forall f t r u, u <> t -> set_reader f t r u = f u. Proof. intros f t r u N. unfold set_reader. apply Nat.eqb_neq in N. rewrite N. reflexivity. Qed.
Lemma set_cases : forall f t r u, (u = t /\ set_reader f t r u = r) \/ (u <> t /\ set_reader f t r u = f u).
Proof. intros f t r u. destruct (Nat.eq_dec u t) as [->|N]; [left; split; [reflexivity|apply set_same]|right; split; [exact N|apply set_other; exact N]]. Qed.
Lemma lazy_inv : forall gives l es, lazy_run gives l es -> lazy_ok l es.
Proof.
  intros gives l es H. induction H as [|l es es' l' H IH S].
  - split; [split; [intros t s []|split; [intros t s []|discriminate]]|discriminate].
  - destruct S as [f t s R|f t R|f t u R|c f t s R G|c f t R|c f t s R]; destruct IH as [I J]; cbn [lz_cell lz_reader] in *.
    + destruct I as ((u & l1 & l2 & E & M & N) & A & B). split; cbn [lz_cell lz_reader].
      * split; [|split].
        -- exists u, l1, (l2 ++ [Reads t s]). split; [rewrite E, <- app_assoc; reflexivity|]. split; [|exact N]. intros t' s' X. rewrite app_assoc in X. apply in_app_or in X. destruct X as [X|[X|[]]]; [exact (M _ _ X)|discriminate X].
        -- intros t' s' X. apply in_app_or in X. destruct X as [X|[X|[]]]; [exact (A _ _ X)|congruence].
        -- intro v. destruct (set_cases f t (Holds s) v) as [[-> E']|[N' E']]; rewrite E'; [discriminate|apply B].
      * intros v s' X. destruct (set_cases f t (Holds s) v) as [[-> E']|[N' E']]; rewrite E' in X; [congruence|exact (J _ _ X)].
    + destruct I as (M & A & B). split; cbn [lz_cell lz_reader].
      * split; [intros t' s' X; apply in_app_or in X; destruct X as [X|[X|[]]]; [exact (M _ _ X)|discriminate X]|]. split; [intros t' s' X; apply in_app_or in X; destruct X as [X|[X|[]]]; [exact (A _ _ X)|discriminate X]|].
        intro v. destruct (set_cases f t Making v) as [[-> E']|[N' E']]; rewrite E'; [tauto|]. split; [intro X; contradiction (B v X)|contradiction].
      * intros v s' X. destruct (set_cases f t Making v) as [[-> E']|[N' E']]; rewrite E' in X; [discriminate X|]. discriminate (J _ _ X).
    + destruct I as (M & A & B). rewrite app_nil_r. split; cbn [lz_cell lz_reader].
      * split; [exact M|]. split; [exact A|]. intro v. destruct (set_cases f t Waiting v) as [[-> E']|[N' E']]; rewrite E'; [|apply B]. split; [discriminate|]. intros ->. pose proof (proj2 (B u) eq_refl). congruence.
      * intros v s' X. destruct (set_cases f t Waiting v) as [[-> E']|[N' E']]; rewrite E' in X; [discriminate X|exact (J _ _ X)].
    + assert (Q : c = Busy t). { destruct c as [|u|s']; [destruct I as (_ & _ & B); contradiction (B _ R)|destruct I as (_ & _ & B); apply B in R; congruence|destruct I as (_ & _ & B); contradiction (B _ R)]. } subst c. destruct I as (M & A & B). split; cbn [lz_cell lz_reader].
      * split; [|split].
        -- exists t, es, [Reads t s]. split; [reflexivity|]. split; [|exact A]. intros t' s' X. apply in_app_or in X. destruct X as [X|[X|[]]]; [exact (M _ _ X)|discriminate X].
        -- intros t' s' X. apply in_app_or in X. destruct X as [X|[X|[X|[]]]]; [contradiction (A _ _ X)|discriminate X|congruence].
        -- intro v. destruct (set_cases f t (Holds s) v) as [[-> E']|[N' E']]; rewrite E'; [discriminate|]. intro X. apply B in X. contradiction.
      * intros v s' X. destruct (set_cases f t (Holds s) v) as [[-> E']|[N' E']]; rewrite E' in X; [congruence|]. discriminate (J _ _ X).
    + assert (Q : c = Busy t). { destruct c as [|u|s']; [destruct I as (_ & _ & B); contradiction (B _ R)|destruct I as (_ & _ & B); apply B in R; congruence|destruct I as (_ & _ & B); contradiction (B _ R)]. } subst c. destruct I as (M & A & B). split; cbn [lz_cell lz_reader].
      * split; [intros t' s' X; apply in_app_or in X; destruct X as [X|[X|[]]]; [exact (M _ _ X)|discriminate X]|]. split; [intros t' s' X; apply in_app_or in X; destruct X as [X|[X|[]]]; [exact (A _ _ X)|discriminate X]|].
        intro v. destruct (set_cases f t Dead v) as [[-> E']|[N' E']]; rewrite E'; [discriminate|]. intro X. apply B in X. contradiction.
      * intros v s' X. destruct (set_cases f t Dead v) as [[-> E']|[N' E']]; rewrite E' in X; [discriminate X|]. discriminate (J _ _ X).
    + rewrite app_nil_r. assert (Q : c = Full s) by exact (J _ _ R). subst c. destruct I as (M & A & B). split; cbn [lz_cell lz_reader].
      * split; [exact M|]. split; [exact A|]. intro v. destruct (set_cases f t Idle v) as [[-> E']|[N' E']]; rewrite E'; [discriminate|apply B].
      * intros v s' X. destruct (set_cases f t Idle v) as [[-> E']|[N' E']]; rewrite E' in X; [discriminate X|exact (J _ _ X)].
Qed.
(** with any number of readers and any schedule: the initializer returns at most once,
    nothing is read before, and all that is read is what it returned *)
Theorem c212_once : forall gives l es, lazy_run gives l es ->
  (forall t s, ~ In (Reads t s) es) /\ (forall t s, ~ In (Made t s) es) \/
  exists t s l1 l2, es = l1 ++ Made t s :: l2 /\ gives s /\ (forall t' s', ~ In (Made t' s') (l1 ++ l2)) /\ (forall t' s', ~ In (Reads t' s') l1) /\ forall t' s', In (Reads t' s') es -> s' = s.
Proof.
  intros gives l es H. destruct (lazy_inv _ _ _ H) as [I _]. assert (GV : forall t s, In (Made t s) es -> gives s).
  { clear I. induction H as [|l es es' l' H IH S]; [intros t s []|]. intros t s X. apply in_app_or in X. destruct X as [X|X]; [exact (IH t s X)|]. destruct S as [f u s' R|f u R|f u v R|c f u s' R G|c f u R|c f u s' R]; cbn [In] in X; try tauto; repeat destruct X as [X|X]; try discriminate X; try contradiction X. injection X as <- <-. exact G. }
  destruct (lz_cell l) as [|u|s]; [left; tauto|left; tauto|right]. destruct I as ((t & l1 & l2 & E & M & N) & A & _). exists t, s, l1, l2. split; [exact E|]. split; [apply (GV t); rewrite E; apply in_or_app; right; left; reflexivity|]. split; [exact M|]. split; [exact N|exact A].
Qed.
(** a reader that waits does not wait for nothing: somebody runs the initializer, or the
    reader can go on *)
Theorem c212_waits : forall gives l es t, lazy_run gives l es -> lz_reader l t = Waiting -> (exists u, u <> t /\ lz_cell l = Busy u /\ lz_reader l u = Making) \/ exists es' l', lazy_step gives l es' l' /\ lz_reader l' t <> Waiting.
Proof.
  intros gives l es t H W. destruct (lazy_inv _ _ _ H) as [I _]. destruct l as [c f]. cbn [lz_cell lz_reader] in *. destruct c as [|u|s].
  - right. eexists _, _. split; [apply (lazy_begin gives f t); auto|]. cbn [lz_reader]. rewrite set_same. discriminate.
  - left. exists u. destruct I as (_ & _ & B). pose proof (proj2 (B u) eq_refl) as X. split; [intros ->; congruence|auto].
  - right. eexists _, _. split; [apply (lazy_read gives f t s); auto|]. cbn [lz_reader]. rewrite set_same. discriminate.
Qed.
(** what is read of a deserialized one is what was serialized *)
Theorem c212_round : forall s l es t x, lazy_run (deserialized s) l es -> In (Reads t x) es -> x = s.
Proof. intros s l es t x H I. destruct (c212_once _ _ _ H) as [[N _]|(u & s' & l1 & l2 & E & G & _ & _ & A)]; [contradiction (N t x I)|]. rewrite (A t x I). exact G. Qed.
Example c212_hypotheses_met : exists l es, lazy_run (fun s => s = "a" \/ s = "b")%string l es /\ In (Fails 0) es /\ In (Made 1 "b"%string) es /\ In (Reads 2 "b"%string) es /\ In (Reads 1 "b"%string) es.
Proof.
  pose (P := fun s => s = "a"%string \/ s = "b"%string). assert (R0 := lazy_start P).
  assert (R1 := lazy_next P _ _ _ _ R0 (lazy_begin P _ 0%nat (or_introl eq_refl))). assert (R2 := lazy_next P _ _ _ _ R1 (lazy_wait P _ 2%nat 0%nat eq_refl)). assert (R3 := lazy_next P _ _ _ _ R2 (lazy_fails P _ _ 0%nat eq_refl)).
  assert (R4 := lazy_next P _ _ _ _ R3 (lazy_begin P _ 1%nat (or_introl eq_refl))). assert (R5 := lazy_next P _ _ _ _ R4 (lazy_made P _ _ 1%nat "b"%string eq_refl (or_intror eq_refl))). assert (R6 := lazy_next P _ _ _ _ R5 (lazy_read P _ 2%nat "b"%string (or_intror eq_refl))).
  eexists _, _. split; [exact R6|]. cbn. intuition.
Qed.

(** ** C213 *)
Lemma same_code : forall a b, fx_code_eqb a b = true <-> a = b.
Proof.
  intros [a1 a2] [b1 b2]. unfold fx_code_eqb. cbn [fx_one fx_two]. destruct (ccy_cases a1 b1) as [[E1 D1]|[E1 D1]], (ccy_cases a2 b2) as [[E2 D2]|[E2 D2]]; rewrite E1, E2; cbn [andb]; split; congruence.
Qed.
Lemma code_known : forall c r, existsb (fx_code_eqb c) r = true <-> In c r.
Proof. intros c r. rewrite existsb_exists. split; [intros (x & I & E); apply same_code in E; congruence|intro I; exists c; split; [exact I|apply same_code; reflexivity]]. Qed.
Lemma with_one : forall a b ds, In b (flat_map (fun d => if negb (ccy_eqb a d) then [FxCode a d] else []) ds) <-> exists d, In d ds /\ d <> a /\ b = FxCode a d.
Proof.
  intros a b ds. rewrite in_flat_map. split; intros (d & I & H); exists d; (split; [exact I|]).
  - destruct (ccy_cases a d) as [[E D]|[E D]]; rewrite E in H; cbn [negb In] in H; [contradiction|]. destruct H as [H|[]]. split; congruence.
  - destruct H as [H ->]. destruct (ccy_cases a d) as [[E D]|[E D]]; rewrite E; cbn [negb In]; [congruence|auto].
Qed.
(** the pairs of two different currencies of the list *)
Theorem c213_pairs : forall cs x, In x (currencies_to_fx_codes cs None) <-> In (fx_one x) cs /\ In (fx_two x) cs /\ fx_one x <> fx_two x.
Proof.
  intros cs x. cbn [currencies_to_fx_codes]. unfold pairs_of. rewrite in_flat_map. split.
  - intros (a & I & H). apply with_one in H. destruct H as (d & J & N & ->). cbn [fx_one fx_two]. auto.
  - intros (I & J & N). exists (fx_one x). split; [exact I|]. apply with_one. exists (fx_two x). split; [exact J|]. split; [congruence|]. destruct x. reflexivity.
Qed.
Lemma nodup_app : forall A (l1 l2 : list A), NoDup l1 -> NoDup l2 -> (forall x, In x l1 -> ~ In x l2) -> NoDup (l1 ++ l2).
Proof. intros A l1 l2 N1 N2 D. induction N1 as [|x l N N1 IH]; [exact N2|]. cbn [app]. constructor; [|apply IH; intros y I; apply D; right; exact I]. intro I. apply in_app_or in I. destruct I as [I|I]; [contradiction|exact (D x (or_introl eq_refl) I)]. Qed.
(** each once, if no currency is listed twice, n (n - 1) of them *)
Theorem c213_once : forall cs, NoDup cs -> NoDup (currencies_to_fx_codes cs None) /\ length (currencies_to_fx_codes cs None) = (length cs * (length cs - 1))%nat.
Proof.
  intros cs N. cbn [currencies_to_fx_codes]. unfold pairs_of.
  assert (W : forall a ds, NoDup ds -> NoDup (flat_map (fun d => if negb (ccy_eqb a d) then [FxCode a d] else []) ds)).
  { intros a ds ND. induction ND as [|d l NI ND IH]; [constructor|]. cbn [flat_map]. apply nodup_app; [destruct (negb _); repeat constructor; intros []|exact IH|]. intros x I J. destruct (ccy_cases a d) as [[E D]|[E D]]; rewrite E in I; cbn [negb In] in I; [exact I|]. destruct I as [<-|[]]. apply with_one in J. destruct J as (d' & I' & _ & Q). injection Q as <-. contradiction. }
  assert (LW : forall a ds, NoDup ds -> length (flat_map (fun d => if negb (ccy_eqb a d) then [FxCode a d] else []) ds) = (length ds - (if existsb (ccy_eqb a) ds then 1 else 0))%nat).
  { intros a ds ND. induction ND as [|d l NI ND IH]; [reflexivity|]. cbn [flat_map existsb length]. rewrite app_length, IH. destruct (ccy_cases a d) as [[E D]|[E D]]; rewrite E; cbn [negb length orb].
    - assert (X : existsb (ccy_eqb a) l = false). { destruct (existsb (ccy_eqb a) l) eqn:X; [|reflexivity]. apply existsb_exists in X. destruct X as (y & I & Q). destruct (ccy_cases a y) as [[E' D']|[E' D']]; [|congruence]. subst. contradiction. } rewrite X. lia.
    - destruct (existsb (ccy_eqb a) l) eqn:X; [|lia]. destruct l; [discriminate X|]. cbn [length]. lia. }
  assert (G : forall l, NoDup l -> (forall a, In a l -> In a cs) -> NoDup (flat_map (fun a => flat_map (fun b => if negb (ccy_eqb a b) then [FxCode a b] else []) cs) l) /\ length (flat_map (fun a => flat_map (fun b => if negb (ccy_eqb a b) then [FxCode a b] else []) cs) l) = (length l * (length cs - 1))%nat).
  { intros l ND SUB. induction ND as [|a l NI ND IH]; [split; [constructor|reflexivity]|]. destruct (IH (fun b I => SUB b (or_intror I))) as [IH1 IH2]. cbn [flat_map length]. split.
    - apply nodup_app; [exact (W a cs N)|exact IH1|]. intros x I J. apply with_one in I. destruct I as (d & _ & _ & ->). apply in_flat_map in J. destruct J as (a' & I' & J). apply with_one in J. destruct J as (d' & _ & _ & Q). injection Q as -> _. contradiction.
    - rewrite app_length, IH2, LW by exact N. assert (X : existsb (ccy_eqb a) cs = true). { apply existsb_exists. exists a. split; [exact (SUB a (or_introl eq_refl))|]. destruct (ccy_cases a a) as [[E _]|[_ D]]; [exact E|congruence]. } rewrite X. lia. }
  apply G; auto.
Qed.
(** those that must be included are, once, after the others, which stay as they are *)
Theorem c213_included : forall cs codes, exists more, currencies_to_fx_codes cs (Some codes) = currencies_to_fx_codes cs None ++ more /\ NoDup more /\
  forall x, In x more <-> In x codes /\ ~ In x (currencies_to_fx_codes cs None).
Proof.
  intros cs codes. cbn [currencies_to_fx_codes]. unfold include. generalize (pairs_of cs) as r. intro r.
  assert (G : forall codes more, NoDup more -> (forall x, In x more -> ~ In x r) -> exists more', fold_left (fun r c => if negb (existsb (fx_code_eqb c) r) then r ++ [c] else r) codes (r ++ more) = r ++ more' /\ NoDup more' /\ forall x, In x more' <-> In x more \/ (In x codes /\ ~ In x r)).
  { clear codes. induction codes as [|c codes IH]; intros more ND D; [exists more; split; [reflexivity|split; [exact ND|cbn [In]; tauto]]|]. cbn [fold_left].
    destruct (existsb (fx_code_eqb c) (r ++ more)) eqn:X; cbn [negb].
    - apply code_known in X. destruct (IH more ND D) as (m' & E & N & I). exists m'. split; [exact E|]. split; [exact N|]. intro x. rewrite I. cbn [In]. split; [tauto|]. intros [Q|[[<-|Q] NR]]; [tauto| |tauto]. apply in_app_or in X. tauto.
    - assert (NX : ~ In c (r ++ more)) by (intro Q; apply code_known in Q; congruence). rewrite <- app_assoc. destruct (IH (more ++ [c])) as (m' & E & N & I).
      + apply nodup_app; [exact ND|repeat constructor; intros []|]. intros x Q [<-|[]]. apply NX, in_or_app. auto.
      + intros x Q. apply in_app_or in Q. destruct Q as [Q|[<-|[]]]; [exact (D x Q)|]. intro Q. apply NX, in_or_app. auto.
      + exists m'. split; [exact E|]. split; [exact N|]. intro x. rewrite I, in_app_iff. cbn [In]. split; [intros [[Q|[<-|[]]]|Q]; [tauto| |tauto]|intros [Q|[[<-|Q] NR]]; tauto]. right. split; [auto|]. intro Q. apply NX, in_or_app. auto. }
  destruct (G codes [] (NoDup_nil _) (fun x I => match I with end)) as (more & E & N & I). rewrite app_nil_r in E. exists more. split; [exact E|]. split; [exact N|]. intro x. rewrite I. cbn [In]. tauto.
Qed.
Example c213_hypotheses_met : NoDup [Ccy_USD; Ccy_EUR; Ccy_KRW] /\ In (FxCode Ccy_USD Ccy_KRW) (currencies_to_fx_codes [Ccy_USD; Ccy_EUR; Ccy_KRW] None) /\ In (FxCode Ccy_KRW Ccy_KRW) (currencies_to_fx_codes [Ccy_USD; Ccy_EUR; Ccy_KRW] (Some [FxCode Ccy_KRW Ccy_KRW])).
Proof. split; [repeat constructor; cbn [In]; intuition discriminate|]. split; vm_compute; tauto. Qed.

(** ** C214 *)
(** what from_u8 takes is what the enum is as a number, and nothing else *)
Theorem c214_round : (forall v x, side_of_u8 v = ROk x <-> v = side_u8 x) /\ (forall v x, data_of_u8 v = ROk x <-> v = data_u8 x) /\ (forall v x, trade_of_u8 v = ROk x <-> v = trade_u8 x).
Proof.
  assert (K : forall v : Z, v = 0 \/ v = 1 \/ v = 2 \/ v = 3 \/ (v <> 0 /\ v <> 1 /\ v <> 2 /\ v <> 3)) by (intro v; lia).
  assert (S : forall v, v <> 1 -> v <> 2 -> side_of_u8 v = RErr) by (intros [|[[p|p|]|[p|p|]|]|p] A B; try reflexivity; congruence). assert (D : forall v, v <> 1 -> v <> 2 -> v <> 3 -> data_of_u8 v = RErr) by (intros [|[[p|p|]|[p|p|]|]|p] A B C; try reflexivity; congruence).
  assert (T : forall v, v <> 0 -> v <> 1 -> v <> 2 -> trade_of_u8 v = RErr) by (intros [|[[p|p|]|[p|p|]|]|p] A B C; try reflexivity; congruence).
  split; [|split]; intros v x; destruct (K v) as [->|[->|[->|[->|(A & B & C & E)]]]]; rewrite ?S, ?D, ?T by assumption; destruct x; cbn; split; intro H; first [reflexivity|discriminate H|congruence|lia].
Qed.
(** the other side, and back *)
Theorem c214_opposite : forall x, opposite x <> x /\ opposite (opposite x) = x.
Proof. intros [|]; split; (discriminate || reflexivity). Qed.
(** a balance begins free, without bounds; setting one bound leaves all the rest *)
Theorem c214_balance : forall s q u l, let b := initialize s q in ba_side b = s /\ ba_outstanding b = q /\ ba_pending b = 0 /\ ba_liquidatable b = q /\ ba_upper b = None /\ ba_lower b = None /\ (balance_is_empty b = true <-> q = 0) /\
  forall c, (ba_upper (with_upper_bound c u) = Some u /\ ba_lower (with_upper_bound c u) = ba_lower c) /\ (ba_lower (with_lower_bound c l) = Some l /\ ba_upper (with_lower_bound c l) = ba_upper c) /\ without_short_sell c = with_lower_bound c 0 /\
    forall d, d = with_upper_bound c u \/ d = with_lower_bound c l -> ba_side d = ba_side c /\ ba_outstanding d = ba_outstanding c /\ ba_pending d = ba_pending c /\ ba_liquidatable d = ba_liquidatable c.
Proof.
  intros s q u l b. do 6 (split; [reflexivity|]). split; [unfold balance_is_empty; cbn; apply Z.eqb_eq|]. intro c. do 2 (split; [split; reflexivity|]). split; [reflexivity|]. intros d [-> | ->]; repeat split.
Qed.

Print Assumptions c211_once.
Print Assumptions c211_rule.
Print Assumptions c211_derivatives.
Print Assumptions c211_both_refuted.
Print Assumptions c212_once.
Print Assumptions c212_waits.
Print Assumptions c212_round.
Print Assumptions c213_pairs.
Print Assumptions c213_once.
Print Assumptions c213_included.
Print Assumptions c214_round.
Print Assumptions c214_opposite.
Print Assumptions c214_balance.
