(** * The continued fraction of a square root and Shanks' square form factorization, as in the textbooks. *)
From Coq Require Import ZArith.
Local Open Scope Z_scope.

(** The complete quotients of sqrt N are (P + sqrt N) / Q with Q dividing N - P^2. The next one belongs to the
    partial quotient a = floor((P + sqrt N) / Q). *)
Definition cf_next (N : Z) (s : Z * Z) : Z * Z :=
  let '(P, Q) := s in let P' := (Z.sqrt N + P) / Q * Q - P in (P', (N - P' * P') / Q).
Definition cf (N : Z) (k : nat) : Z * Z := Nat.iter k (cf_next N) (0, 1).

(** Walking from s, u is the first P that repeats. *)
Definition cf_turn (N : Z) (s : Z * Z) (u : Z) : Prop :=
  exists b, (forall i, (i < b)%nat -> fst (Nat.iter (S i) (cf_next N) s) <> fst (Nat.iter i (cf_next N) s)) /\
    fst (Nat.iter b (cf_next N) s) = u /\ fst (Nat.iter (S b) (cf_next N) s) = u.

(** After k quotients Q is a square r^2. The walk that starts with the greatest P <= sqrt N congruent to the current one modulo r,
    and with the denominator r behind it, turns at u, and d = gcd (n, u) is a proper divisor of n. *)
Definition shanks_hit (n N : Z) (k : nat) (d : Z) : Prop :=
  exists r u, 0 < r /\ snd (cf N k) = r * r /\
    let P := fst (cf N k) in let u0 := (Z.sqrt N - P) / r * r + P in
    cf_turn N (u0, (N - u0 * u0) / r) u /\ d = Z.gcd n u /\ 1 < d < n.
