(** Common vocabulary of the model. *)
From Coq Require Export ZArith Lia List Bool.
From stdpp Require Export base numbers list list_numbers.
From Coq Require Export ZifyBool ZifyNat.
Export ListNotations.
Open Scope Z_scope.

(** Outcome of a C++ function that may throw, hit a failed [assert] or run into
    undefined behaviour.
    - [Done a]: normal return.
    - [Throw]: an exception that leaves the function.
    - [Crash]: a failed assert, an out-of-bounds access or other UB.
    - [Diverge]: the explicit fuel of an unbounded loop ran out. *)
Inductive outcome (A : Type) : Type :=
| Done (a : A)
| Throw
| Crash
| Diverge.
Arguments Done {A} a.
Arguments Throw {A}.
Arguments Crash {A}.
Arguments Diverge {A}.

Definition obind {A B} (m : outcome A) (f : A -> outcome B) : outcome B :=
  match m with
  | Done a => f a
  | Throw => Throw
  | Crash => Crash
  | Diverge => Diverge
  end.

Notation "'dlet' x := m 'in' k" := (obind m (fun x => k))
  (at level 200, x pattern, m at level 100, k at level 200, right associativity).

(** A failed [assert] aborts; asserts cannot be compiled out in this code base
    (include/dragonstash/debug_mutex.hpp uses [m_current_owner], which only
    exists without NDEBUG). *)
Definition assert_ {A} (b : bool) (k : outcome A) : outcome A :=
  if b then k else Crash.
Notation "'dassert' b ; k" := (assert_ b k)
  (at level 200, b at level 100, k at level 200, right associativity).

(** Unsigned machine words. *)
Definition u64max : Z := 2 ^ 64.
Definition w64 (z : Z) : Z := z mod 2 ^ 64.
Definition w32 (z : Z) : Z := z mod 2 ^ 32.
Definition w16 (z : Z) : Z := z mod 2 ^ 16.
Definition w8 (z : Z) : Z := z mod 2 ^ 8.

Lemma w64_id z : 0 <= z < 2 ^ 64 -> w64 z = z.
Proof. intros; apply Z.mod_small; assumption. Qed.
Lemma w16_id z : 0 <= z < 2 ^ 16 -> w16 z = z.
Proof. intros; apply Z.mod_small; assumption. Qed.
Lemma w8_id z : 0 <= z < 2 ^ 8 -> w8 z = z.
Proof. intros; apply Z.mod_small; assumption. Qed.
Lemma w64_range z : 0 <= w64 z < 2 ^ 64.
Proof. apply Z.mod_pos_bound; reflexivity. Qed.
