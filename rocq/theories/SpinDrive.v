(** SpinDrive.v -- an executor for concrete histories of the spin queue, used
    by the examples and the counterexamples (proved sound for [exec]). *)
From Coq Require Import ZArith List Bool Lia.
From Verif Require Import Base SpinModel.
Import ListNotations.
Open Scope Z_scope.

(** A chosen event: thread, event, and the position read (loads and
    read-modify-writes) or written (stores). *)
Definition chosen := (tid * event Z * nat)%type.

Definition drive1 (q : queue) (s : machine Z) (ce : chosen) : option (machine Z) :=
  let '(t, e, i) := ce in
  match e with
  | EGetMut got =>
      match nth_error (mo s) i with
      | Some x =>
          if (floor s t <=? i)%nat && Bool.eqb got (match get_mut q (m_val x) with Some _ => true | None => false end)
          then Some (do_load s t i x) else None
      | None => None
      end
  | EGet w got =>
      match nth_error (mo s) i with
      | Some x =>
          if (floor s t <=? i)%nat && Bool.eqb got (match get q (m_val x) w with Some _ => true | None => false end)
          then Some (do_load s t i x) else None
      | None => None
      end
  | ENotify =>
      if (floor s t <? i)%nat && (i =? length (mo s))%nat
      then Some (do_store s t i (notify_value q)) else None
  | EDone w =>
      match nth_error (mo s) i with
      | Some x =>
          if (floor s t <=? i)%nat && (i + 1 =? length (mo s))%nat
          then Some (do_rmw s t i x (work_done_value (m_val x) w)) else None
      | None => None
      end
  | EWrite v => Some (do_access s t (upd (last_write s) t (S (accesses s t))) v)
  | ERead v => if v =? datum s then Some (do_access s t (last_write s) (datum s)) else None
  end.

Fixpoint drive (q : queue) (s : machine Z) (l : list chosen) : option (machine Z) :=
  match l with
  | [] => Some s
  | ce :: r => match drive1 q s ce with Some s' => drive q s' r | None => None end
  end.

Definition shown (l : list chosen) : list (tid * event Z) := map fst l.

Lemma drive1_step : forall q s t e i s', drive1 q s (t, e, i) = Some s' -> step q s t e s'.
Proof.
  intros q s t e i s' H. unfold drive1 in H. destruct e.
  - destruct (nth_error (mo s) i) as [x|] eqn:Ex; [|discriminate].
    destruct ((floor s t <=? i)%nat) eqn:F; [|discriminate]. cbn [andb] in H.
    destruct (Bool.eqb got _) eqn:G; [|discriminate]. inversion H; subst.
    apply Bool.eqb_prop in G. econstructor; eauto. apply Nat.leb_le; exact F.
  - destruct ((floor s t <? i)%nat) eqn:F; [|discriminate]. cbn [andb] in H.
    destruct (Nat.eqb_spec i (length (mo s))) as [->|]; [|discriminate]. inversion H; subst.
    apply Nat.ltb_lt in F. econstructor; [lia|lia|].
    intros x Hx. unfold at_pos in Hx.
    assert (length (mo s) - 1 + 1 < length (mo s))%nat by (apply nth_error_Some; congruence). lia.
  - destruct (nth_error (mo s) i) as [x|] eqn:Ex; [|discriminate].
    destruct ((floor s t <=? i)%nat) eqn:F; [|discriminate]. cbn [andb] in H.
    destruct (Bool.eqb got _) eqn:G; [|discriminate]. inversion H; subst.
    apply Bool.eqb_prop in G. econstructor; eauto. apply Nat.leb_le; exact F.
  - destruct (nth_error (mo s) i) as [x|] eqn:Ex; [|discriminate].
    destruct ((floor s t <=? i)%nat) eqn:F; [|discriminate]. cbn [andb] in H.
    destruct (Nat.eqb_spec (i + 1)%nat (length (mo s))) as [Q|]; [|discriminate]. inversion H; subst.
    econstructor; [apply Nat.leb_le; exact F|exact Ex|].
    intros y Hy. unfold at_pos in Hy.
    assert (i + 1 < length (mo s))%nat by (apply nth_error_Some; congruence). lia.
  - inversion H; subst. constructor.
  - destruct (Z.eqb_spec v (datum s)) as [->|]; [|discriminate]. inversion H; subst. constructor.
Qed.

Lemma drive_exec_from : forall q l s0 h s s', exec q s0 h s -> drive q s l = Some s' ->
  exec q s0 (h ++ shown l) s'.
Proof.
  intros q l. induction l as [|[[t e] i] l IH]; intros s0 h s s' X H; cbn [drive shown map] in *.
  - inversion H; subst. rewrite app_nil_r. exact X.
  - destruct (drive1 q s (t, e, i)) as [s1|] eqn:D; [|discriminate].
    cbn [fst]. change ((t, e) :: map fst l) with ([(t, e)] ++ shown l). rewrite app_assoc.
    eapply IH; [|exact H]. econstructor; [exact X|]. eapply drive1_step; eauto.
Qed.

Theorem drive_exec : forall q l s s', drive q s l = Some s' -> exec q s (shown l) s'.
Proof. intros q l s s' H. apply (drive_exec_from q l s [] s s'); [constructor|exact H]. Qed.
