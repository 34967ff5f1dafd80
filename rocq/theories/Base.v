(** Base.v -- machine arithmetic and outcomes shared by every model file.

    The Rust crates are compiled with two settings of [overflow-checks]:
    the default dev/test profile (on: an overflowing [+], [-], [*] panics) and
    the release profile of /repo/Cargo.toml lines 10-13 (off: the operation
    wraps modulo 2^n).  Every arithmetic operation of the model takes the
    setting as a parameter, so that a theorem quantified over [build] speaks
    about both binaries. *)
From Coq Require Import ZArith List Lia.
Import ListNotations.
Open Scope Z_scope.

(** Which binary: [Checked] = overflow panics (cargo build / cargo test),
    [Wrapping] = overflow wraps (cargo build --release). *)
Inductive build : Type := Checked | Wrapping.

(** Result of running a Rust function: it returns, it panics, or it never
    returns ([Diverge] is produced only where the model runs a [while] loop
    on fuel and the fuel runs out). *)
Inductive outcome (A : Type) : Type :=
| Ret (a : A)
| Panic
| Diverge.
Arguments Ret {A} a.
Arguments Panic {A}.
Arguments Diverge {A}.

Definition obind {A B} (x : outcome A) (f : A -> outcome B) : outcome B :=
  match x with
  | Ret a => f a
  | Panic => Panic
  | Diverge => Diverge
  end.

Notation "'let!' x ':=' e1 'in' e2" :=
  (obind e1 (fun x => e2))
  (at level 200, x pattern, e1 at level 100, e2 at level 200).

(** u64 and i64 ranges. *)
Definition two64 : Z := 18446744073709551616.
Definition u64_max : Z := 18446744073709551615.
Definition i64_min : Z := -9223372036854775808.
Definition i64_max : Z := 9223372036854775807.
Definition is_u64 (x : Z) : Prop := 0 <= x < two64.
Definition is_i64 (x : Z) : Prop := i64_min <= x <= i64_max.

(** [a + b] on u64. *)
Definition uadd (m : build) (a b : Z) : outcome Z :=
  if a + b <? two64 then Ret (a + b)
  else match m with Checked => Panic | Wrapping => Ret (a + b - two64) end.

(** [a - b] on u64. *)
Definition usub (m : build) (a b : Z) : outcome Z :=
  if b <=? a then Ret (a - b)
  else match m with Checked => Panic | Wrapping => Ret (a - b + two64) end.

(** [a.saturating_sub(b)] on u64. *)
Definition usat_sub (a b : Z) : Z := Z.max 0 (a - b).

(** [a * b] on u64. *)
Definition umul (m : build) (a b : Z) : outcome Z :=
  if a * b <? two64 then Ret (a * b)
  else match m with Checked => Panic | Wrapping => Ret ((a * b) mod two64) end.

(** Rust's [Result<T, anyhow::Error>], without the error text. *)
Inductive rresult (A : Type) : Type := ROk (a : A) | RErr.
Arguments ROk {A} a.
Arguments RErr {A}.

Lemma uadd_ok : forall m a b, a + b < two64 -> uadd m a b = Ret (a + b).
Proof. intros m a b H. unfold uadd. destruct (Z.ltb_spec (a + b) two64); [reflexivity | lia]. Qed.

Lemma usub_ok : forall m a b, b <= a -> usub m a b = Ret (a - b).
Proof. intros m a b H. unfold usub. destruct (Z.leb_spec b a); [reflexivity | lia]. Qed.

Lemma umul_ok : forall m a b, a * b < two64 -> umul m a b = Ret (a * b).
Proof. intros m a b H. unfold umul. destruct (Z.ltb_spec (a * b) two64); [reflexivity | lia]. Qed.
