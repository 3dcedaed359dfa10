(** * Specification vocabulary.
    Textbook notions only, over [Z]; nothing here mentions the model of the code.
    [prime], [rel_prime] and [( | )] are those of Coq's standard library. *)
From Coq Require Import ZArith Znumtheory List Lia Bool Sorted.
Import ListNotations.
Local Open Scope Z_scope.

(** ** Counting *)

(** [count P n] = number of integers i with 1 <= i <= n and [P i]. *)
Fixpoint count (P : Z -> bool) (n : nat) : Z :=
  match n with
  | O => 0
  | S k => count P k + (if P (Z.of_nat (S k)) then 1 else 0)
  end.

(** ** Primes *)

(** No divisor d with 2 <= d < n. *)
Definition primeb (n : Z) : bool :=
  (2 <=? n) &&
  forallb (fun d => negb (n mod (Z.of_nat d) =? 0)) (seq 2 (Z.to_nat n - 2)).

(** The prime counting function pi(x). *)
Definition prime_count (x : Z) : Z := count primeb (Z.to_nat x).

(** [p] is the n-th prime (2 is the first). *)
Definition nth_prime_is (n p : Z) : Prop := prime p /\ prime_count p = n.

(** [l] lists exactly the primes satisfying [B], each once, in increasing order. *)
Definition lists_primes (l : list Z) (B : Z -> Prop) : Prop :=
  StronglySorted Z.lt l /\ forall p, In p l <-> prime p /\ B p.

(** Legendre's partial sieve function: how many of 1..x are divisible by none of the
    first [a] primes. *)
Definition coprime_to_first (a n : Z) : bool :=
  forallb (fun q => negb (primeb (Z.of_nat q) && (prime_count (Z.of_nat q) <=? a)
                          && (n mod Z.of_nat q =? 0)))
          (seq 2 (Z.to_nat n - 1)).
Definition legendre_phi (x a : Z) : Z := count (coprime_to_first a) (Z.to_nat x).

(** [p] is the least prime above [n] / greatest prime below [n]. *)
Definition least_prime_above (n p : Z) : Prop :=
  prime p /\ n < p /\ forall q, prime q -> n < q -> p <= q.
Definition greatest_prime_below (n p : Z) : Prop :=
  prime p /\ p < n /\ forall q, prime q -> q < n -> q <= p.

Definition safe_prime (n : Z) : Prop := prime n /\ prime ((n - 1) / 2).

(** ** Factorizations *)

Definition proper_divisor (d n : Z) : Prop := 1 < d /\ d < n /\ (d | n).

(** Value of a map prime -> exponent. *)
Fixpoint prod_powers (m : list (Z * Z)) : Z :=
  match m with
  | [] => 1
  | (p, e) :: m' => p ^ e * prod_powers m'
  end.
Fixpoint prod (l : list Z) : Z :=
  match l with [] => 1 | x :: l' => x * prod l' end.

(** A strictly ordered association list with positive exponents. *)
Definition wf_map (m : list (Z * Z)) : Prop :=
  StronglySorted Z.lt (map fst m) /\ Forall (fun pe => 1 <= snd pe) m.

(** [m] is the prime factorization of [n]. *)
Definition prime_factorization (n : Z) (m : list (Z * Z)) : Prop :=
  wf_map m /\ Forall (fun pe => prime (fst pe)) m /\ prod_powers m = n.

(** ** The Moebius function *)

Definition square_free (n : Z) : Prop := forall d, 1 < d -> ~ (d * d | n).
(** number of distinct prime divisors of n >= 1 *)
Definition omega (n : Z) : Z := count (fun q => primeb q && (n mod q =? 0)) (Z.to_nat n).
Definition moebius_is (n v : Z) : Prop :=
  (square_free n /\ v = (-1) ^ omega n) \/ (~ square_free n /\ v = 0).

(** ** Probable primes *)

Definition fermat_prp (n a : Z) : Prop := a ^ (n - 1) mod n = 1 mod n.

(** n - 1 = d * 2^s with d odd *)
Definition strong_prp (n a : Z) : Prop :=
  exists d s, 0 <= s /\ Z.odd d = true /\ n - 1 = d * 2 ^ s /\
    (a ^ d mod n = 1 mod n \/
     exists r, 0 <= r < s /\ a ^ (d * 2 ^ r) mod n = (-1) mod n).

(** ** Lucas sequences *)

Fixpoint lucasUV (P Q : Z) (n : nat) : (Z * Z) * (Z * Z) :=
  (* ((U_n, U_{n+1}), (V_n, V_{n+1})) *)
  match n with
  | O => ((0, 1), (2, P))
  | S k => let '((u, u'), (v, v')) := lucasUV P Q k in
           ((u', P * u' - Q * u), (v', P * v' - Q * v))
  end.
Definition lucasU (P Q n : Z) : Z := fst (fst (lucasUV P Q (Z.to_nat n))).
Definition lucasV (P Q n : Z) : Z := fst (snd (lucasUV P Q (Z.to_nat n))).

(** Legendre symbol for an odd prime p, from its definition by squares. *)
Definition legendre (a p : Z) : Z :=
  if a mod p =? 0 then 0
  else if existsb (fun x => (Z.of_nat x * Z.of_nat x - a) mod p =? 0) (seq 1 (Z.to_nat p - 1))
       then 1 else -1.

(** Trial division factor list (with multiplicity) of n >= 1, smallest first. *)
Fixpoint factor_list_from (fuel : nat) (d n : Z) : list Z :=
  match fuel with
  | O => []
  | S k => if n <=? 1 then []
           else if n mod d =? 0 then d :: factor_list_from k d (n / d)
           else factor_list_from k (d + 1) n
  end.
Definition factor_list (n : Z) : list Z := factor_list_from (2 * Z.to_nat n) 2 n.

(** Jacobi symbol: product of Legendre symbols over the prime factors of n. *)
Definition jacobi (a n : Z) : Z := fold_right (fun p r => legendre a p * r) 1 (factor_list n).

(** Lucas probable primes with parameters P, Q and D = P^2 - 4Q. *)
Definition lucas_prp (n P Q : Z) : Prop :=
  lucasU P Q (n - jacobi (P * P - 4 * Q) n) mod n = 0.

(** n - (D/n) = d * 2^s, d odd: U_d = 0 or V_{d 2^r} = 0 for some 0 <= r < s. *)
Definition strong_lucas_prp (n P Q : Z) : Prop :=
  exists d s, 0 <= s /\ Z.odd d = true /\ n - jacobi (P * P - 4 * Q) n = d * 2 ^ s /\
    (lucasU P Q d mod n = 0 \/
     exists r, 0 <= r < s /\ lucasV P Q (d * 2 ^ r) mod n = 0).

(** Q = 1; U_d = 0 and V_d = +-2, or V_{d 2^r} = 0 for some 0 <= r < s - 1. *)
Definition extra_strong_lucas_prp (n P : Z) : Prop :=
  exists d s, 0 <= s /\ Z.odd d = true /\ n - jacobi (P * P - 4) n = d * 2 ^ s /\
    ((lucasU P 1 d mod n = 0 /\
      (lucasV P 1 d mod n = 2 mod n \/ lucasV P 1 d mod n = (-2) mod n)) \/
     exists r, 0 <= r < s - 1 /\ lucasV P 1 (d * 2 ^ r) mod n = 0).

(** ** Bits *)
(** number of binary digits *)
Definition bit_length (n : Z) : Z := if n <=? 0 then 0 else Z.log2 n + 1.

(** ** Discriminants tried by Selfridge's method A: 5, -7, 9, -11, ... *)
Definition selfridge_D (k : nat) : Z := (-1) ^ Z.of_nat k * (5 + 2 * Z.of_nat k).
(** [D] is the first of them whose Jacobi symbol modulo n is -1. *)
Definition selfridge_choice (n D : Z) : Prop :=
  exists k, D = selfridge_D k /\ jacobi D n = -1 /\ forall j, (j < k)%nat -> jacobi (selfridge_D j) n <> -1.
(** [P] is the first P >= 3 such that (P^2 - 4 / n) = -1. *)
Definition bruteforce_choice (n P : Z) : Prop :=
  3 <= P /\ jacobi (P * P - 4) n = -1 /\ forall p, 3 <= p < P -> jacobi (p * p - 4) n <> -1.
