(** * Model of examples/profile_factorization.rs, apart from its printing.
    What `random()` and the generator deliver is a list of draws, what the clock delivers (microseconds between
    `Instant::now()` and `elapsed()`) another. The column with the logarithm of n (line 121) is left out: it is
    printed only. *)
From Coq Require Import ZArith List Bool.
From Verif Require Import Base Ext MInteger MSieve MTraits Ops MFactor MIsPrime MRand.
Import ListNotations.
Local Open Scope Z_scope.

(** The column names: examples/profile_factorization.rs:21 pollard_rho{i}, 28 squfof_k{k}, 39 one_line_k{k}, 69-70 pollard_rho and
    time_pollard_rho, 83-84 squfof and time_squfof, 97-98 one_line and time_one_line *)
Inductive column : Type :=
| PollardRhoNo (i : Z) | SqufofK (k : Z) | OneLineK (k : Z)
| PollardRho | TimePollardRho | Squfof | TimeSqufof | OneLine | TimeOneLine.
(** examples/profile_factorization.rs:10, 52: Vec<(String, usize)> *)
Definition row : Type := list (column * Z).

Section Profile.
Context (f : feature) (pf : profile) (lf : nat) (fuel : Z).

(** examples/profile_factorization.rs:19-24: one pass of the first loop of profile_n *)
Definition profile_rho (n : Z) (st : row * draws) (i : Z) : res (row * draws) :=
  let '(n_stats, dr) := st in
  '(start, dr1) <- draw 128 dr ;; '(offset, dr2) <- draw 128 dr1 ;;
  '(_, iters) <- pollard_rho pf (uops f pf u128) n start offset 1048576 ;;
  Ret (n_stats ++ [(PollardRhoNo (i + 1), iters)], dr2).
(** examples/profile_factorization.rs:27-35 (squfof) and 38-46 (one line): one pass of the loop over the multipliers *)
Definition profile_mul (name : Z -> column) (method : Z -> Z -> Z -> res (option Z * Z)) (n : Z) (n_stats : row) (k : Z) : res row :=
  match checked u128 (n * k) with
  | Some kn => '(_, iters) <- method n kn 1048576 ;; Ret (n_stats ++ [(name k, iters)])
  | None => Ret (n_stats ++ [(name k, 1048576)])
  end.
(** examples/profile_factorization.rs:10-49 profile_n *)
Definition profile_n (n : Z) (dr : draws) : res (row * draws) :=
  '(s1, dr1) <- foldM (profile_rho n) (range_step 0 2 1) ([], dr) ;;
  s2 <- foldM (profile_mul SqufofK (squfof f pf u128 fuel) n) (firstn 10 SQUFOF_MULTIPLIERS) s1 ;;
  s3 <- foldM (profile_mul OneLineK (one_line f pf u128) n) [1; 360; 480] s2 ;;
  Ret (s3, dr1).

(** Ord::min on the pairs (iterations, time): the first unless the second is less *)
Definition pair_min (a b : Z * Z) : Z * Z :=
  if (fst a <? fst b) || ((fst a =? fst b) && (snd a <=? snd b)) then a else b.
(** examples/profile_factorization.rs:65-67, 78-80, 92-94: only a success is timed and compared *)
Definition keep_best (best : Z * Z) (r : option Z * Z) (ts : draws) : res ((Z * Z) * draws) :=
  match fst r with
  | Some _ => '(t, ts1) <- draw 128 ts ;; Ret (pair_min best (snd r, t), ts1)
  | None => Ret (best, ts)
  end.
(** examples/profile_factorization.rs:62-68: one pass; state ((pollard_best, clock), draws) *)
Definition best_rho (n : Z) (st : (Z * Z) * draws * draws) (_ : Z) : res ((Z * Z) * draws * draws) :=
  let '(best, ts, dr) := st in
  '(start, dr1) <- draw 128 dr ;; '(offset, dr2) <- draw 128 dr1 ;;
  r <- pollard_rho pf (uops f pf u128) n start offset (fst best) ;;
  '(best', ts1) <- keep_best best r ts ;;
  Ret (best', ts1, dr2).
(** examples/profile_factorization.rs:74-82, 88-96: one pass over a multiplier; state (best, clock) *)
Definition best_mul (method : Z -> Z -> Z -> res (option Z * Z)) (n : Z) (st : (Z * Z) * draws) (k : Z) : res ((Z * Z) * draws) :=
  let '(best, ts) := st in
  match checked u128 (n * k) with
  | Some kn => r <- method n kn (fst best) ;; keep_best best r ts
  | None => Ret (best, ts)
  end.
(** examples/profile_factorization.rs:52-101 profile_n_min; `as usize` of a time keeps the low 64 bits. Line 98 pushes
    squfof_best.1 under the name time_one_line, as here. *)
Definition profile_n_min (n : Z) (dr ts : draws) : res (row * draws * draws) :=
  let none := (16777216, 2 ^ 128 - 1) in
  '(pollard_best, ts1, dr1) <- foldM (best_rho n) (range_step 0 4 1) (none, ts, dr) ;;
  '(squfof_best, ts2) <- foldM (best_mul (squfof f pf u128 fuel) n) SQUFOF_MULTIPLIERS (none, ts1) ;;
  '(oneline_best, ts3) <- foldM (best_mul (one_line f pf u128) n) [1; 360; 480] (none, ts2) ;;
  Ret ([(PollardRho, fst pollard_best); (TimePollardRho, snd pollard_best mod 2 ^ 64);
        (Squfof, fst squfof_best); (TimeSqufof, snd squfof_best mod 2 ^ 64);
        (OneLine, fst oneline_best); (TimeOneLine, snd squfof_best mod 2 ^ 64)], dr1, ts3).

(** examples/profile_factorization.rs:113-115: the two primes; `128 - p1.leading_zeros()` is the number of bits of p1 *)
Definition semiprime_pair (total_bits : Z) (dr : draws) : res (Z * Z * draws) :=
  '(p1, dr1) <- gen_prime_u128 f pf lf fuel false (total_bits / 2) None dr ;;
  let bits := if p1 =? 0 then 0 else Z.log2 p1 + 1 in
  b2 <- sub_ pf usize total_bits bits ;;
  '(p2, dr2) <- gen_prime_u128 f pf lf fuel true b2 None dr1 ;;
  Ret (p1, p2, dr2).
(** examples/profile_factorization.rs:112-125: one pass of the inner loop. The vectors n_list and stats only grow together, here
    they are one list of pairs. *)
Definition profile_pass (total_bits : Z) (st : list (Z * row) * draws * draws) (_ : Z) : res (list (Z * row) * draws * draws) :=
  let '(stats, dr, ts) := st in
  '(p1, p2, dr1) <- semiprime_pair total_bits dr ;;
  if p1 =? p2 then Ret (stats, dr1, ts)
  else
    n <- mul_ pf u128 p1 p2 ;;
    '(s, dr2, ts2) <- profile_n_min n dr1 ts ;;
    Ret (stats ++ [(n, s)], dr2, ts2).
(** examples/profile_factorization.rs:111-126 *)
Definition profile_collect (dr ts : draws) : res (list (Z * row) * draws * draws) :=
  foldM (fun st total_bits => foldM (profile_pass total_bits) (range_step 0 4 1) st) (range_step 20 120 1) ([], dr, ts).
(** examples/profile_factorization.rs:104-147 main: the header (from stats[0]) and the lines of the file *)
Definition profile_main (dr ts : draws) : res (list column * list (Z * list Z)) :=
  '(stats, _, _) <- profile_collect dr ts ;;
  '(_, s0) <- index stats 0 ;;
  Ret (map fst s0, map (fun ns => (fst ns, map snd (snd ns))) stats).
End Profile.
