(** * Model of src/rand.rs: random prime generation. *)
From Coq Require Import ZArith List Bool.
From Verif Require Import Base Ext MInteger Ops MTraits MSieve MIsPrime.
Import ListNotations.
Local Open Scope Z_scope.

Section Rand.
Context (f : feature) (pf : profile) (lf : nat) (fuel : Z).

(** ** u8, u16, u32, u64: src/rand.rs:8-81, width [w] *)

(** src/rand.rs:19, 37: [(t >> (BITS - bit_size)) | 1], with the top bit set if [exact] *)
Definition shape_prim (w bit_size : Z) (exact : bool) (t0 : Z) : res Z :=
  k <- sub_ pf (U 32) w bit_size ;;
  t1 <- shr_ pf (U w) t0 k ;;
  let t2 := Z.lor t1 1 in
  if exact then
    k1 <- sub_ pf usize bit_size 1 ;; top <- shl_ pf (U w) 1 k1 ;; Ret (Z.lor t2 top)
  else Ret t2.

(** src/rand.rs:12-27 gen_prime, 30-45 gen_prime_exact *)
Definition gen_prime_prim (w : Z) (exact : bool) (bit_size : Z) (dr : draws) : res (Z * draws) :=
  if w <? bit_size then Panic
  else
    loop fuel (fun dr =>
      '(t0, dr1) <- draw w dr ;;
      t <- shape_prim w bit_size exact t0 ;;
      b <- is_prime64 f pf t ;;
      if b then Ret (Done (t, dr1))
      else
        '(r, dr2) <- next_prime f pf (U w) lf fuel t None dr1 ;;
        match r with Some p => Ret (Done (p, dr2)) | None => Ret (Next dr2) end) dr.

(** [p.checked_mul(2).and_then(|v| v.checked_add(1))] *)
Definition double_plus_one (t : ity) (p : Z) : option Z :=
  match checked t (p * 2) with Some v => checked t (v + 1) | None => None end.

(** src/rand.rs:48-64 gen_safe_prime *)
Definition gen_safe_prime_prim (w : Z) (bit_size : Z) (dr : draws) : res (Z * draws) :=
  loop fuel (fun dr =>
    '(p, dr1) <- gen_prime_prim w false bit_size dr ;;
    h <- shr_ pf (U w) p 1 ;;
    b <- is_prime64 f pf h ;;
    if b then Ret (Done (p, dr1))
    else
      match double_plus_one (U w) p with
      | Some p2 => b2 <- is_prime64 f pf p2 ;;
                   if b2 then Ret (Done (p2, dr1)) else Ret (Next dr1)
      | None => Ret (Next dr1)
      end) dr.

(** src/rand.rs:67-77 gen_safe_prime_exact *)
Definition gen_safe_prime_exact_prim (w : Z) (bit_size : Z) (dr : draws) : res (Z * draws) :=
  loop fuel (fun dr =>
    '(p, dr1) <- gen_prime_prim w true bit_size dr ;;
    h <- shr_ pf (U w) p 1 ;;
    b <- is_prime64 f pf h ;;
    if b then Ret (Done (p, dr1)) else Ret (Next dr1)) dr.

(** ** u128: src/rand.rs:83-146 *)

(** src/rand.rs:85-100 gen_prime, 103-118 gen_prime_exact. Note that next_prime is called with
    [None] and not with [config], as in the source. *)
Definition gen_prime_u128 (exact : bool) (bit_size : Z) (config : option prime_config) (dr : draws)
    : res (Z * draws) :=
  if 128 <? bit_size then Panic
  else
    loop fuel (fun dr =>
      '(t0, dr1) <- draw 128 dr ;;
      t <- shape_prim 128 bit_size exact t0 ;;
      '(b, dr2) <- mint_probably f pf u128 lf t config dr1 ;;
      if b then Ret (Done (t, dr2))
      else
        '(r, dr3) <- next_prime f pf u128 lf fuel t None dr2 ;;
        match r with Some p => Ret (Done (p, dr3)) | None => Ret (Next dr3) end) dr.

(** src/rand.rs:121-134 gen_safe_prime *)
Definition gen_safe_prime_u128 (bit_size : Z) (dr : draws) : res (Z * draws) :=
  loop fuel (fun dr =>
    '(p, dr1) <- gen_prime_u128 false bit_size (Some pc_strict) dr ;;
    h <- shr_ pf u128 p 1 ;;
    '(b, dr2) <- mint_probably f pf u128 lf h (Some pc_strict) dr1 ;;
    if b then Ret (Done (p, dr2))
    else
      match double_plus_one u128 p with
      | Some p2 => '(b2, dr3) <- prime_probably f pf u128 lf p2 (Some pc_strict) dr2 ;;
                   if b2 then Ret (Done (p2, dr3)) else Ret (Next dr3)
      | None => Ret (Next dr2)
      end) dr.

(** src/rand.rs:137-145 gen_safe_prime_exact *)
Definition gen_safe_prime_exact_u128 (bit_size : Z) (dr : draws) : res (Z * draws) :=
  loop fuel (fun dr =>
    '(p, dr1) <- gen_prime_u128 true bit_size (Some pc_strict) dr ;;
    h <- shr_ pf u128 p 1 ;;
    '(b, dr2) <- mint_probably f pf u128 lf h (Some pc_strict) dr1 ;;
    if b then Ret (Done (p, dr2)) else Ret (Next dr2)) dr.

(** ** BigUint: src/rand.rs:148-202 *)

(** src/rand.rs:153-154, 166-168: [gen_biguint(bit_size)] draws a number of at most [bit_size] bits;
    [set_bit(i, true)] is a bitwise or with 2^i; [bit_size as u64 - 1] can underflow *)
Definition shape_big (bit_size : Z) (exact : bool) (t0 : Z) : res Z :=
  let t1 := Z.lor t0 1 in
  if exact then k <- sub_ pf u64 bit_size 1 ;; Ret (Z.lor t1 (2 ^ k)) else Ret t1.

(** src/rand.rs:151-161 gen_prime, 164-175 gen_prime_exact *)
Definition gen_prime_big (exact : bool) (bit_size : Z) (config : option prime_config) (dr : draws)
    : res (Z * draws) :=
  loop fuel (fun dr =>
    '(t0, dr1) <- draw bit_size dr ;;
    t <- shape_big bit_size exact t0 ;;
    '(b, dr2) <- prime_probably f pf Big lf t config dr1 ;;
    if b then Ret (Done (t, dr2))
    else
      '(r, dr3) <- next_prime f pf Big lf fuel t config dr2 ;;
      match r with Some p => Ret (Done (p, dr3)) | None => Ret (Next dr3) end) dr.

(** src/rand.rs:178-190 gen_safe_prime (tail recursion as a loop) *)
Definition gen_safe_prime_big (bit_size : Z) (dr : draws) : res (Z * draws) :=
  loop fuel (fun dr =>
    '(p, dr1) <- gen_prime_big false bit_size (Some pc_strict) dr ;;
    '(b, dr2) <- prime_probably f pf Big lf (Z.shiftr p 1) (Some pc_strict) dr1 ;;
    if b then Ret (Done (p, dr2))
    else
      let p2 := Z.shiftl p 1 + 1 in
      '(b2, dr3) <- prime_probably f pf Big lf p2 (Some pc_strict) dr2 ;;
      if b2 then Ret (Done (p2, dr3)) else Ret (Next dr3)) dr.

(** src/rand.rs:193-201 gen_safe_prime_exact *)
Definition gen_safe_prime_exact_big (bit_size : Z) (dr : draws) : res (Z * draws) :=
  loop fuel (fun dr =>
    '(p, dr1) <- gen_prime_big true bit_size (Some pc_strict) dr ;;
    '(b, dr2) <- prime_probably f pf Big lf (Z.shiftr p 1) (Some pc_strict) dr1 ;;
    if b then Ret (Done (p, dr2)) else Ret (Next dr2)) dr.
End Rand.
