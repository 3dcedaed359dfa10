(** * The programs in /repo/examples, apart from their printing. *)
From Coq Require Import ZArith List Bool.
From Verif Require Import Base Ext MInteger MSieve MTraits Ops MIsPrime MFactorize.
Import ListNotations.
Local Open Scope Z_scope.

(** [iter.map(g)], element by element *)
Fixpoint mapM {A B} (g : A -> res B) (l : list A) : res (list B) :=
  match l with
  | [] => Ret []
  | a :: l' => b <- g a ;; bs <- mapM g l' ;; Ret (b :: bs)
  end.

(** Vec::<u64>::with_capacity: panics when the size in bytes exceeds isize::MAX *)
Definition with_capacity (cap : Z) : res unit := if 8 * cap <? 2 ^ 63 then Ret tt else Panic.

(** u64::pow: the result is checked (or wrapped) once; the squares computed on the way never exceed it *)
Definition pow64 (pf : profile) (b e : Z) : res Z := wrapz pf u64 (b ^ e).

(** examples/divisor_sigma.rs:12-16: the new divisors for one entry (p, e) of the factorization *)
Definition divisors_step (pf : profile) (result : list Z) (pe : Z * Z) : res (list Z) :=
  let '(p, e) := pe in
  cap <- mul_ pf usize (Z.of_nat (length result)) e ;;
  _ <- with_capacity cap ;;
  stop <- add_ pf (U 32) (e mod 2 ^ 32) 1 ;;
  new_result <- foldM (fun acc i =>
      more <- mapM (fun g => q <- pow64 pf p i ;; mul_ pf u64 g q) result ;; Ret (acc ++ more))
    (range_step 1 stop 1) [] ;;
  Ret (result ++ new_result).
(** examples/divisor_sigma.rs:4-19 divisors *)
Definition divisors (f : feature) (pf : profile) (fuel : Z) (target : Z) (dr : draws) : res (list Z * draws) :=
  '(factors, dr') <- factorize64 f pf fuel target dr ;;
  cap <- foldM (fun acc pe => e1 <- add_ pf usize (snd pe) 1 ;; mul_ pf usize acc e1) factors 1 ;;
  _ <- with_capacity cap ;;
  l <- foldM (divisors_step pf) factors [1] ;;
  Ret (l, dr').
(** examples/divisor_sigma.rs:23-25 divisor_sigma *)
Definition divisor_sigma (f : feature) (pf : profile) (fuel : Z) (target z : Z) (dr : draws) : res (Z * draws) :=
  '(l, dr') <- divisors f pf fuel target dr ;;
  v <- foldM (fun acc d => q <- pow64 pf d z ;; add_ pf u64 acc q) l 0 ;;
  Ret (v, dr').

(** examples/prime_omega.rs:5-7 prime_omega *)
Definition prime_omega (f : feature) (pf : profile) (fuel : Z) (target : Z) (dr : draws) : res (Z * draws) :=
  '(m, dr') <- factorize64 f pf fuel target dr ;; Ret (Z.of_nat (length m), dr').
(** examples/prime_omega.rs:12-14 prime_Omega *)
Definition prime_Omega (f : feature) (pf : profile) (fuel : Z) (target : Z) (dr : draws) : res (Z * draws) :=
  '(m, dr') <- factorize64 f pf fuel target dr ;;
  v <- foldM (fun acc pe => add_ pf usize acc (snd pe)) m 0 ;;
  Ret (v, dr').

(** examples/find_lucky_primes.rs:10-15: one pass of the sieve; [i] is the index of the head *)
Fixpoint lucky_pass (pf : profile) (s : Z) (i : Z) (l : list Z) : res (list Z) :=
  match l with
  | [] => Ret []
  | x :: l' =>
      i1 <- add_ pf usize i 1 ;;
      r <- rem_ i1 s ;;
      rest <- lucky_pass pf s i1 l' ;;
      Ret (if r =? 0 then rest else x :: rest)
  end.
(** examples/find_lucky_primes.rs:8-17: the loop, state (k, numbers) *)
Definition lucky_step (pf : profile) (st : Z * list Z) : res (step (Z * list Z) (list Z)) :=
  let '(k, numbers) := st in
  if k <? Z.of_nat (length numbers) / 2 then
    s <- index numbers k ;;
    numbers' <- lucky_pass pf s 0 numbers ;;
    k' <- add_ pf usize k 1 ;;
    Ret (Next (k', numbers'))
  else Ret (Done numbers).
(** examples/find_lucky_primes.rs:5-19 list_lucky_numbers *)
Definition list_lucky_numbers (pf : profile) (fuel : Z) (limit : Z) : res (list Z) :=
  loop fuel (lucky_step pf) (1, range_step 1 limit 2).
(** examples/find_lucky_primes.rs:23-28 list_lucky_primes *)
Definition list_lucky_primes (f : feature) (pf : profile) (fuel : Z) (limit : Z) : res (list Z) :=
  l <- list_lucky_numbers pf fuel limit ;;
  foldM (fun acc p => b <- is_prime64 f pf p ;; Ret (if b : bool then acc ++ [p] else acc)) l [].

(** examples/find_mersenne_primes.rs:7 (the filter of list_mersenne) *)
Definition mersenne_step (f : feature) (pf : profile) (lf : nat) (st : list Z * draws) (p : Z) : res (list Z * draws) :=
  let '(acc, dr1) := st in
  x <- wrapz pf u128 (2 ^ (p mod 2 ^ 32)) ;;
  m <- sub_ pf u128 x 1 ;;
  '(b, dr2) <- prime_probably f pf u128 lf m None dr1 ;;
  Ret (if b : bool then acc ++ [p] else acc, dr2).
(** examples/find_mersenne_primes.rs:4-9 list_mersenne *)
Definition list_mersenne (f : feature) (pf : profile) (lf : nat) (dr : draws) : res (list Z * draws) :=
  ps <- nt_primes f pf 128 ;; foldM (mersenne_step f pf lf) ps ([], dr).
