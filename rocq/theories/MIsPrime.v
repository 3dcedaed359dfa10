(** * Model of the deterministic and probabilistic primality tests
    (src/nt_funcs.rs:38-141, src/buffer.rs:39-106) and of the prime searches built on them
    (src/nt_funcs.rs:799-958). *)
From Coq Require Import ZArith List Bool.
From Verif Require Import Base Ext Tables MInteger Ops MPrimality MTraits MSieve.
Import ListNotations.
Local Open Scope Z_scope.

(** src/nt_funcs.rs:102, 106 *)
Definition WITNESS32 : list Z := [2; 7; 61].
Definition WITNESS64 : list Z := [2; 325; 9375; 28178; 450775; 9780504; 1795265022].

(** [SmallMint::from(n).is_sprp(SmallMint::from(a))] at width [w] *)
Definition mint_sprp (pf : profile) (w n a : Z) : res bool :=
  is_sprp (mops pf (U w)) (ML n) (ML a).

(** [list.iter().all(|x| test(x))], short-circuiting *)
Fixpoint allM {A} (test : A -> res bool) (l : list A) : res bool :=
  match l with
  | [] => Ret true
  | x :: l' => b <- test x ;; if b then allM test l' else Ret false
  end.

(** src/nt_funcs.rs:114-117: hash of a u32 into 0..255 ([wrapping_mul] on u64) *)
Definition hash32 (target : Z) : Z :=
  let h := (Z.lxor (Z.shiftr target 16) target * 73244475) mod 2 ^ 64 in
  let h := (Z.lxor (Z.shiftr h 16) h * 73244475) mod 2 ^ 64 in
  Z.land (Z.lxor (Z.shiftr h 16) h) 255.

(** src/nt_funcs.rs:113-120 is_prime32_miller (big-table) *)
Definition is_prime32_miller (pf : profile) (target : Z) : res bool :=
  base <- index MILLER_RABIN_BASE32 (hash32 target) ;;
  mint_sprp pf 32 target base.

(** src/nt_funcs.rs:135-138: hash of a u64 into 0..16383 *)
Definition hash64 (target : Z) : Z :=
  let h := (Z.lxor (Z.shiftr target 32) target * 314582625596846953) mod 2 ^ 64 in
  let h := (Z.lxor (Z.shiftr h 32) h * 230628295901552443) mod 2 ^ 64 in
  Z.land (Z.lxor (Z.shiftr h 32) h) 16383.

(** src/nt_funcs.rs:99-110 (SmallTable), 125-141 (BigTable) is_prime64_miller *)
Definition is_prime64_miller (f : feature) (pf : profile) (target : Z) : res bool :=
  match f with
  | SmallTable =>
      if target <? 2 ^ 32 then allM (mint_sprp pf 32 target) WITNESS32
      else allM (mint_sprp pf 64 target) WITNESS64
  | BigTable =>
      if target <? 2 ^ 32 then is_prime32_miller pf target
      else
        r2 <- mint_sprp pf 64 target 2 ;;
        if negb r2 then Ret false
        else
          b <- index MILLER_RABIN_BASE64 (hash64 target) ;;
          r1 <- mint_sprp pf 64 target (Z.land b 4095) ;;
          if r1 then mint_sprp pf 64 target (Z.shiftr b 12) else Ret false
  end.

(** src/nt_funcs.rs:56-59, 86-89: coprimality to WHEEL_SIZE from the jump table *)
Definition wheel_reject (f : feature) (target : Z) : res bool :=
  let pos := target mod WHEEL_SIZE f in
  if pos =? 0 then Ret true
  else
    a <- index (WHEEL_NEXT f) pos ;; b <- index (WHEEL_NEXT f) (pos - 1) ;;
    Ret (a <? b).

(** src/nt_funcs.rs:50-52 ([u8::try_from]), 80-82 *)
Definition in_small_range (f : feature) (target : Z) : bool :=
  match f with SmallTable => target <? 256 | BigTable => target <? SMALL_PRIMES_NEXT f end.

(** src/nt_funcs.rs:42-64 (SmallTable), 70-94 (BigTable) is_prime64 *)
Definition is_prime64 (f : feature) (pf : profile) (target : Z) : res bool :=
  if target <? 2 then Ret false
  else if Z.land target 1 =? 0 then Ret (target =? 2)
  else if in_small_range f target then
    Ret (match bsearch (SMALL_PRIMES f) target with Found _ => true | NotFound _ => false end)
  else
    rej <- wheel_reject f target ;;
    if rej then Ret false else is_prime64_miller f pf target.

(** ** PrimeBufferExt::is_prime *)
Section IsPrime.
Context {T A : Type} (f : feature) (pf : profile) (OP : ops T) (PR : probs A).

(** src/buffer.rs:76-79: redraw until the witness is new *)
Fixpoint fresh_witness (dr : draws) (ws : list Z) : res (Z * draws) :=
  match dr with
  | [] => NoFuel
  | x :: dr' =>
      let w := x mod 2 ^ 64 in
      if existsb (Z.eqb w) ws then fresh_witness dr' ws else Ret (w, dr')
  end.

(** src/buffer.rs:74-81 *)
Fixpoint random_witnesses (k : nat) (dr : draws) (ws : list Z) : res (list Z * draws) :=
  match k with
  | O => Ret (ws, dr)
  | S k' => '(w, dr') <- fresh_witness dr ws ;; random_witnesses k' dr' (ws ++ [w])
  end.

(** src/buffer.rs:39-106 is_prime, for a buffer holding the primes [buf] *)
Definition is_prime (fuel : nat) (buf : list Z) (target : T) (config : option prime_config)
    (dr : draws) : res (primality A * draws) :=
  if o_is_even OP target then
    two <- o_const OP 2 ;; b <- o_eqb OP target two ;;
    Ret (if b then Yes else No, dr)
  else if o_to_z OP target <? 2 ^ 64 then
    b <- is_prime64 f pf (o_to_z OP target) ;;
    Ret (if b then Yes else No, dr)
  else
    let config := match config with Some c => c | None => pc_default end in
    let ws0 := if 0 <? sprp_trials config
               then firstn (Z.to_nat (sprp_trials config)) buf else [] in
    let pr0 := if 0 <? sprp_trials config
               then pr_mul PR (pr_one PR) (pr_trials PR (sprp_trials config)) else pr_one PR in
    '(ws, dr') <- (if 0 <? sprp_random_trials config
                   then random_witnesses (Z.to_nat (sprp_random_trials config)) dr ws0
                   else Ret (ws0, dr)) ;;
    let pr1 := if 0 <? sprp_random_trials config
               then pr_mul PR pr0 (pr_trials PR (sprp_random_trials config)) else pr0 in
    ok <- allM (fun w => b <- o_const OP w ;; is_sprp OP target b) ws ;;
    if negb ok then Ret (No, dr')
    else
      sl <- (if slprp_test config then is_slprp pf OP fuel target None None else Ret true) ;;
      let pr2 := if slprp_test config then pr_mul PR pr1 (pr_lucas PR) else pr1 in
      if negb sl then Ret (No, dr')
      else
        el <- (if eslprp_test config then is_eslprp pf OP fuel target None else Ret true) ;;
        let pr3 := if eslprp_test config then pr_mul PR pr2 (pr_lucas PR) else pr2 in
        if negb el then Ret (No, dr')
        else Ret (Probable pr3, dr').

(** src/nt_funcs.rs:502-507 is_prime: on a new buffer *)
Definition nt_is_prime (fuel : nat) (target : T) (config : option prime_config) (dr : draws)
    : res (primality A * draws) :=
  is_prime fuel (buf_iter (buf_new f)) target config dr.
End IsPrime.

(** Dictionary used where only [.probably()] of the result matters. *)
Definition no_probs : probs unit :=
  {| pr_one := tt; pr_mul := fun _ _ => tt; pr_trials := fun _ => tt; pr_lucas := tt |}.

(** [is_prime(&x, config).probably()] on a plain integer / on a SmallMint *)
Definition prime_probably (f : feature) (pf : profile) (t : ity) (fuel : nat) (x : Z)
    (config : option prime_config) (dr : draws) : res (bool * draws) :=
  '(p, dr') <- nt_is_prime f pf (uops f pf t) no_probs fuel x config dr ;;
  Ret (probably p, dr').
Definition mint_probably (f : feature) (pf : profile) (t : ity) (fuel : nat) (x : Z)
    (config : option prime_config) (dr : draws) : res (bool * draws) :=
  '(p, dr') <- nt_is_prime f pf (mops pf t) no_probs fuel (ML x) config dr ;;
  Ret (probably p, dr').

(** src/nt_funcs.rs:799-815 is_safe_prime at an unsigned type *)
Definition is_safe_prime {A} (f : feature) (pf : profile) (t : ity) (PR : probs A) (fuel : nat)
    (target : Z) (dr : draws) : res (primality A * draws) :=
  half <- shr_ pf t target 1 ;;
  '(sophie_p, dr1) <- nt_is_prime f pf (uops f pf t) PR fuel half (Some pc_strict) dr ;;
  match sophie_p with
  | No => Ret (No, dr1)
  | _ =>
      '(target_p, dr2) <- nt_is_prime f pf (uops f pf t) PR fuel target (Some pc_strict) dr1 ;;
      Ret (prim_and (pr_mul PR) target_p sophie_p, dr2)
  end.

(** src/nt_funcs.rs:842-851, 876-887: moving forward along the wheel; state (i, t, draws) *)
Definition next_step (f : feature) (pf : profile) (t : ity) (lf : nat) (config : option prime_config)
    (st : Z * Z * draws) : res (step (Z * Z * draws) (option Z * draws)) :=
  let '(i, x, dr) := st in
  offset <- index (WHEEL_NEXT f) i ;;
  off <- unwrap (from_prim t offset) ;;
  match checked t (x + off) with
  | None => Ret (Done (None, dr))
  | Some x' =>
      i' <- ext_addm i offset (WHEEL_SIZE f) ;;
      '(b, dr') <- prime_probably f pf t lf x' config dr ;;
      if b then Ret (Done (Some x', dr')) else Ret (Next (i', x', dr'))
  end.

(** src/nt_funcs.rs:820-852 (SmallTable), 857-888 (BigTable) next_prime *)
Definition next_prime (f : feature) (pf : profile) (t : ity) (lf : nat) (fuel : Z) (target : Z)
    (config : option prime_config) (dr : draws) : res (option Z * draws) :=
  let along_wheel :=
    ws <- unwrap (from_prim t (WHEEL_SIZE f)) ;; i <- rem_ target ws ;;
    loop fuel (next_step f pf t lf config) (i, target, dr) in
  match f with
  | SmallTable =>
      if target <? 256 then
        match bsearch (SMALL_PRIMES f) target with
        | Found pos =>
            if Z.of_nat pos + 1 =? Z.of_nat (length (SMALL_PRIMES f))
            then Ret (from_prim t (SMALL_PRIMES_NEXT f), dr)
            else p <- index (SMALL_PRIMES f) (Z.of_nat pos + 1) ;; Ret (from_prim t p, dr)
        | NotFound pos => p <- index (SMALL_PRIMES f) (Z.of_nat pos) ;; Ret (from_prim t p, dr)
        end
      else along_wheel
  | BigTable =>
      c255 <- unwrap (from_prim t 255) ;;
      small <- (if target <=? c255 then Ret true
                else lst <- unwrap (from_prim t (last (SMALL_PRIMES f) 0)) ;; Ret (target <? lst)) ;;
      if small then
        p <- match bsearch (SMALL_PRIMES f) target with
             | Found pos => index (SMALL_PRIMES f) (Z.of_nat pos + 1)
             | NotFound pos => index (SMALL_PRIMES f) (Z.of_nat pos)
             end ;;
        Ret (from_prim t p, dr)
      else along_wheel
  end.

(** src/nt_funcs.rs:911-920, 946-957: moving backward along the wheel *)
Definition prev_step (f : feature) (pf : profile) (t : ity) (lf : nat) (config : option prime_config)
    (st : Z * Z * draws) : res (step (Z * Z * draws) (option Z * draws)) :=
  let '(i, x, dr) := st in
  offset <- index (WHEEL_PREV f) i ;;
  off <- unwrap (from_prim t offset) ;;
  x' <- sub_ pf t x off ;;
  i' <- ext_subm i offset (WHEEL_SIZE f) ;;
  '(b, dr') <- prime_probably f pf t lf x' config dr ;;
  if b then Ret (Done (Some x', dr')) else Ret (Next (i', x', dr')).

(** src/nt_funcs.rs:893-921 (SmallTable), 926-958 (BigTable) prev_prime *)
Definition prev_prime (f : feature) (pf : profile) (t : ity) (lf : nat) (fuel : Z) (target : Z)
    (config : option prime_config) (dr : draws) : res (option Z * draws) :=
  if target <=? 2 then Ret (None, dr)
  else
    let along_wheel :=
      ws <- unwrap (from_prim t (WHEEL_SIZE f)) ;; i <- rem_ target ws ;;
      loop fuel (prev_step f pf t lf config) (i, target, dr) in
    let in_table :=
      p <- match bsearch (SMALL_PRIMES f) target with
           | Found pos => index (SMALL_PRIMES f) (Z.of_nat pos - 1)
           | NotFound pos => index (SMALL_PRIMES f) (Z.of_nat pos - 1)
           end ;;
      c <- unwrap (from_prim t p) ;; Ret (Some c, dr) in
    match f with
    | SmallTable => if target <? 256 then in_table else along_wheel
    | BigTable =>
        c255 <- unwrap (from_prim t 255) ;;
        small <- (if target <=? c255 then Ret true
                  else lst <- unwrap (from_prim t (last (SMALL_PRIMES f) 0)) ;; Ret (target <? lst)) ;;
        if small then in_table else along_wheel
    end.
