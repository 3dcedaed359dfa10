(** * Specification vocabulary for the example programs.
    Textbook notions only; nothing here mentions the model of the code. *)
From Coq Require Import ZArith Znumtheory List Bool.
From Verif Require Import Spec.
Import ListNotations.
Local Open Scope Z_scope.

(** The sum of the z-th powers of the divisors of n >= 1. *)
Definition sigma (z n : Z) : Z :=
  fold_right Z.add 0 (map (fun i => let d := Z.of_nat i in if n mod d =? 0 then d ^ z else 0) (seq 1 (Z.to_nat n))).

(** [ps] is n written as a product of primes, with multiplicity. *)
Definition prime_product (n : Z) (ps : list Z) : Prop := Forall prime ps /\ prod ps = n.

(** The sieve for the lucky numbers on infinite sequences. [lucky_stage 0] is the sequence of odd
    numbers; the next stage drops every s-th member, s being the member with index k + 1 of stage k
    (indices from 0). Dropping every s-th member of g leaves g (i + i / (s - 1)), i = 0, 1, 2, ... *)
Definition drop_every (s : nat) (g : nat -> nat) : nat -> nat := fun i => g (i + i / (s - 1))%nat.
Fixpoint lucky_stage (k : nat) : nat -> nat :=
  match k with
  | O => fun i => (2 * i + 1)%nat
  | S k' => let g := lucky_stage k' in drop_every (g (S k')) g
  end.
(** The lucky numbers are those that survive every stage. *)
Definition lucky (n : Z) : Prop := forall k, exists i, Z.of_nat (lucky_stage k i) = n.
