(** * Model of NaiveBuffer's storage (src/buffer.rs:256-385) and of the bounds functions it uses. *)
From Coq Require Import ZArith List Bool FMapPositive.
From Verif Require Import Base Ext Tables MInteger.
Import ListNotations.
Local Open Scope Z_scope.

(** src/tables.rs constants selected by the cargo feature big-table *)
Definition SMALL_PRIMES (f : feature) : list Z :=
  match f with BigTable => SMALL_PRIMES_big | SmallTable => SMALL_PRIMES_small end.
Definition SMALL_PRIMES_NEXT (f : feature) : Z :=
  match f with BigTable => SMALL_PRIMES_NEXT_big | SmallTable => SMALL_PRIMES_NEXT_small end.
Definition WHEEL_SIZE (f : feature) : Z :=
  match f with BigTable => WHEEL_SIZE_big | SmallTable => WHEEL_SIZE_small end.
Definition WHEEL_NEXT (f : feature) : list Z :=
  match f with BigTable => WHEEL_NEXT_big | SmallTable => WHEEL_NEXT_small end.
Definition WHEEL_PREV (f : feature) : list Z :=
  match f with BigTable => WHEEL_PREV_big | SmallTable => WHEEL_PREV_small end.

(** src/buffer.rs:257-260 *)
Record buffer : Type := mkBuf { b_list : list Z; b_next : Z }.

(** src/buffer.rs:264-270 new *)
Definition buf_new (f : feature) : buffer :=
  {| b_list := SMALL_PRIMES f; b_next := SMALL_PRIMES_NEXT f |}.

(** src/buffer.rs:276-278 contains *)
Definition buf_contains (b : buffer) (num : Z) : bool :=
  match bsearch (b_list b) num with Found _ => true | NotFound _ => false end.

(** src/buffer.rs:280-284 clear *)
Definition buf_clear (b : buffer) : buffer :=
  {| b_list := firstn 16 (b_list b); b_next := 55 |}.

(** src/buffer.rs:286-288 iter *)
Definition buf_iter (b : buffer) : list Z := b_list b.

(** src/buffer.rs:290-292 bound: [*self.list.last().unwrap()] *)
Definition buf_bound (b : buffer) : res Z :=
  match b_list b with [] => Panic | x :: l => Ret (last l x) end.

(** The bit vector of src/buffer.rs:303 as a length and the set of the indices that are 1. *)
Definition bits := PositiveMap.t unit.
Definition bit_key (i : Z) : positive := Z.to_pos (i + 1).
Definition bit_get (s : bits) (i : Z) : bool := PositiveMap.mem (bit_key i) s.
(** [sieve.set(i, true)]: panics out of bounds *)
Definition bit_set (len : Z) (s : bits) (i : Z) : res bits :=
  if (0 <=? i) && (i <? len) then Ret (PositiveMap.add (bit_key i) tt s) else Panic.

(** src/buffer.rs:311-315, 320-324: [for multi in (start..sieve_limit).step_by(2 * p)] *)
Definition mark_multiples (pf : profile) (current sieve_limit len p start : Z) (s : bits) : res bits :=
  stride <- mul_ pf usize 2 p ;;
  if stride =? 0 then Panic
  else
    foldM (fun s multi =>
             if current <=? multi then bit_set len s ((multi - current) / 2) else Ret s)
          (range_step start sieve_limit stride) s.

(** src/buffer.rs:304-316: sieving with a known prime *)
Definition sieve_old (pf : profile) (current sieve_limit len : Z) (s : bits) (p : Z) : res bits :=
  pp <- mul_ pf u64 p p ;;
  start <- (if pp <? current then q <- div_ current p ;; mul_ pf u64 p (Z.lor q 1)
            else mul_ pf u64 p p) ;;
  mark_multiples pf current sieve_limit len p start s.

(** src/buffer.rs:319-325: sieving with a new odd number *)
Definition sieve_new (pf : profile) (current sieve_limit len : Z) (s : bits) (p : Z) : res bits :=
  pp <- mul_ pf u64 p p ;;
  mark_multiples pf current sieve_limit len p pp s.

(** src/buffer.rs:328-329: [sieve.iter_zeros().map(|x| (x as u64) * 2 + current)] *)
Definition collect (current len : Z) (s : bits) : list Z :=
  map (fun x => x * 2 + current)
      (filter (fun x => negb (bit_get s x)) (range_step 0 len 1)).

(** src/buffer.rs:294-331 reserve *)
Definition reserve (pf : profile) (b : buffer) (limit : Z) : res buffer :=
  sieve_limit <- add_ pf u64 (Z.lor limit 1) 2 ;;
  let current := b_next b in
  if (match pf with Debug => negb (current mod 2 =? 1) | Release => false end) then Panic
  else if sieve_limit <? current then Ret b
  else
    let len := (sieve_limit - current) / 2 in
    s1 <- foldM (sieve_old pf current sieve_limit len) (tl (b_list b)) (PositiveMap.empty unit) ;;
    top <- add_ pf u64 (ext_sqrt sieve_limit) 1 ;;
    s2 <- foldM (sieve_new pf current sieve_limit len) (range_step current top 2) s1 ;;
    Ret {| b_list := b_list b ++ collect current len s2; b_next := sieve_limit |}.

(** [binary_search] position as used by src/buffer.rs:350-353, 442-445 *)
Definition upto_position (l : list Z) (limit : Z) : nat :=
  match bsearch l limit with Found p => S p | NotFound p => p end.

(** src/buffer.rs:348-355 primes (and 358-366 into_primes, which returns the same sequence) *)
Definition buf_primes (pf : profile) (b : buffer) (limit : Z) : res (list Z * buffer) :=
  b' <- reserve pf b limit ;;
  Ret (firstn (upto_position (b_list b') limit) (b_list b'), b').

(** src/nt_funcs.rs:725-795 nth_prime_bounds at type [t]. [fl] stands for the floating point
    formulas of lines 742-793 (including the conversion [T::from_f64], [None] if it fails). *)
Definition nth_prime_bounds (f : feature) (t : ity) (fl : Z -> option (Z * Z)) (x : Z)
    : res (option (Z * Z)) :=
  if x =? 0 then Ret (Some (0, 0))
  else if x <=? Z.of_nat (length (SMALL_PRIMES f)) then
    p <- index (SMALL_PRIMES f) (x - 1) ;;
    c <- unwrap (from_prim t p) ;;
    Ret (Some (c, c))
  else Ret (fl x).

(** src/buffer.rs:369-375 nprimes (and 378-385 into_nprimes); the debug_assert is checked in debug
    builds only *)
Definition buf_nprimes (f : feature) (pf : profile) (fl : Z -> option (Z * Z)) (b : buffer) (count : Z)
    : res (list Z * buffer) :=
  bd <- nth_prime_bounds f u64 fl count ;;
  '(_, bound) <- unwrap bd ;;
  b' <- reserve pf b bound ;;
  if (match pf with
      | Debug => Z.of_nat (length (b_list b')) <? count
      | Release => false
      end) then Panic
  else Ret (firstn (Z.to_nat count) (b_list b'), b').

(** src/buffer.rs:339-341 primorial at type [t]: product of the first n primes *)
Definition buf_primorial (f : feature) (pf : profile) (t : ity) (fl : Z -> option (Z * Z)) (b : buffer) (n : Z)
    : res (Z * buffer) :=
  '(ps, b') <- buf_nprimes f pf fl b n ;;
  r <- foldM (fun acc p => p' <- unwrap (from_prim t p) ;; mul_ pf t acc p') ps 1 ;;
  Ret (r, b').

(** src/nt_funcs.rs:535-537 primes, 542-544 nprimes, 561-566 primorial: on a new buffer *)
Definition nt_primes (f : feature) (pf : profile) (limit : Z) : res (list Z) :=
  '(l, _) <- buf_primes pf (buf_new f) limit ;; Ret l.
Definition nt_nprimes (f : feature) (pf : profile) (fl : Z -> option (Z * Z)) (count : Z) : res (list Z) :=
  '(l, _) <- buf_nprimes f pf fl (buf_new f) count ;; Ret l.
Definition nt_primorial (f : feature) (pf : profile) (t : ity) (fl : Z -> option (Z * Z)) (n : Z) : res Z :=
  '(r, _) <- buf_primorial f pf t fl (buf_new f) n ;; Ret r.

(** src/nt_funcs.rs:646-706 prime_pi_bounds at type [t]; [fl] stands for lines 662-705 *)
Definition prime_pi_bounds (f : feature) (t : ity) (fl : Z -> option (Z * Z)) (x : Z) : res (Z * Z) :=
  if x <=? last (SMALL_PRIMES f) 0 then
    let n := Z.of_nat (upto_position (SMALL_PRIMES f) x) in
    c <- unwrap (from_prim t n) ;; Ret (c, c)
  else unwrap (fl x).

(** src/nt_funcs.rs:962-965 (SmallTable: average of the bounds), 972-1001 (BigTable: exact in the
    table, otherwise Gram's series in floating point, [fl2]) prime_pi_est *)
Definition prime_pi_est (f : feature) (pf : profile) (t : ity) (fl : Z -> option (Z * Z))
    (fl2 : Z -> option Z) (x : Z) : res Z :=
  match f with
  | SmallTable =>
      '(lo, hi) <- prime_pi_bounds f t fl x ;;
      s <- add_ pf t lo hi ;; div_ s 2
  | BigTable =>
      if x <=? last (SMALL_PRIMES f) 0 then
        '(lo, _) <- prime_pi_bounds f (U 16) fl x ;; unwrap (from_prim t lo)
      else unwrap (fl2 x)
  end.

(** src/nt_funcs.rs:1005-1026 nth_prime_est at type [t]; [pi_est] is prime_pi_est *)
Definition nth_prime_est (f : feature) (pf : profile) (t : ity) (fuel : Z)
    (bounds : Z -> option (Z * Z)) (pi_est : Z -> res Z) (target : Z) : res (option Z) :=
  bd <- nth_prime_bounds f t bounds target ;;
  match bd with
  | None => Ret None
  | Some (lo, hi) =>
      if lo =? hi then Ret (Some lo)
      else
        loop fuel (fun '(lo, hi) =>
          hi1 <- sub_ pf t hi 1 ;;
          if lo =? hi1 then Ret (Done (Some lo))
          else
            s <- add_ pf t lo hi ;; x <- div_ s 2 ;;
            mid <- pi_est x ;;
            if mid <? target then Ret (Next (x, hi))
            else if target <? mid then Ret (Next (lo, x))
            else Ret (Done (Some x)))
          (lo, hi)
  end.
