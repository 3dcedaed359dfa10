(** * Model of src/integer.rs and of the ExactRoots / BitTest traits (src/traits.rs). *)
From Coq Require Import ZArith List Bool.
From Verif Require Import Base Ext Tables.
Import ListNotations.
Local Open Scope Z_scope.

(** cargo feature big-table on/off *)
Inductive feature := BigTable | SmallTable.

(** ** BitTest *)

(** src/integer.rs:15-17 (primitives), 36-38 (BigUint): bits *)
Definition bt_bits (n : Z) : Z := if n =? 0 then 0 else Z.log2 n + 1.

(** src/integer.rs:19-21: [self & (1 << position) > 0] (primitives; the shift overflows for
    position >= width); 33-35 (BigUint): bit test at any position. *)
Definition bt_bit (pf : profile) (t : ity) (n pos : Z) : res bool :=
  match t with
  | U w => m <- shl_ pf t 1 pos ;; Ret (0 <? Z.land n m)
  | Big => Ret (Z.testbit n pos)
  end.

(** src/integer.rs:23-25 (primitives: width for 0), 40-45 (BigUint: 0 for 0): trailing_zeros *)
Definition bt_trailing_zeros (t : ity) (n : Z) : Z :=
  if n =? 0 then match t with U w => w | Big => 0 end else ztz n.

(** ** ExactRoots *)

(** src/traits.rs:185-192 nth_root_exact (default method).
    [r.pow(n)] cannot overflow since |r^n| <= |self|. *)
Definition nth_root_exact (x k : Z) : res (option Z) :=
  r <- ext_nth_root x k ;;
  Ret (if r ^ k =? x then Some r else None).

(** src/integer.rs:51-59 sqrt_exact for primitive integers of width [w], signed or unsigned.
    [self.trailing_zeros()] of 0 is the width, so [self >> shift] overflows there. *)
Definition sqrt_exact_prim (pf : profile) (w : Z) (x : Z) : res (option Z) :=
  if x <? 0 then Ret None
  else
    let shift := if x =? 0 then w else ztz x in
    if Z.land shift 1 =? 1 then Ret None
    else
      y <- shr_ pf (U w) x shift ;;
      if negb (Z.land y 7 =? 1) then Ret None
      else nth_root_exact x 2.

(** src/traits.rs:196-198 cbrt_exact (default method, used by all primitives) *)
Definition cbrt_exact_prim (x : Z) : res (option Z) := nth_root_exact x 3.

(** src/traits.rs:199-207 *)
Definition is_nth_power (x k : Z) : res bool :=
  r <- nth_root_exact x k ;; Ret (match r with Some _ => true | None => false end).
Definition is_square_prim (pf : profile) (w x : Z) : res bool :=
  r <- sqrt_exact_prim pf w x ;; Ret (match r with Some _ => true | None => false end).
Definition is_cubic_prim (x : Z) : res bool :=
  r <- cbrt_exact_prim x ;; Ret (match r with Some _ => true | None => false end).

(** The residue filter loops, src/integer.rs:89-94 (one u64 mask per modulus, index masked with
    [& 63]); the shift amount of a u64 must be below 64. *)
Fixpoint residue_ok_small (mask63 : bool) (pf : profile) (x : Z) (ms rs : list Z) : res bool :=
  match ms, rs with
  | m :: ms', r :: rs' =>
      let i := x mod m in
      let i := if mask63 then Z.land i 63 else i in
      y <- shr_ pf (U 64) r i ;;
      if Z.land y 1 =? 0 then Ret false else residue_ok_small mask63 pf x ms' rs'
  | _, _ => Ret true
  end.
(** src/integer.rs:96-101 (sixteen u64 words per modulus) *)
Fixpoint residue_ok_big (pf : profile) (x : Z) (ms : list Z) (rs : list (list Z)) : res bool :=
  match ms, rs with
  | m :: ms', r :: rs' =>
      let rem := x mod m in
      word <- index r (rem / 64) ;;
      y <- shr_ pf (U 64) word (rem mod 64) ;;
      if Z.land y 1 =? 0 then Ret false else residue_ok_big pf x ms' rs'
  | _, _ => Ret true
  end.
(** src/integer.rs:88-101 *)
Definition quad_filter (f : feature) (pf : profile) (x : Z) : res bool :=
  match f with
  | SmallTable => residue_ok_small true pf x QUAD_MODULI_small QUAD_RESIDUAL_small
  | BigTable => residue_ok_big pf x QUAD_MODULI_big QUAD_RESIDUAL_big
  end.
(** src/integer.rs:122-134 (no [& 63] in the small variant) *)
Definition cubic_filter (f : feature) (pf : profile) (x : Z) : res bool :=
  match f with
  | SmallTable => residue_ok_small false pf x CUBIC_MODULI_small CUBIC_RESIDUAL_small
  | BigTable => residue_ok_big pf x CUBIC_MODULI_big CUBIC_RESIDUAL_big
  end.

(** src/integer.rs:69-104 sqrt_exact for BigUint *)
Definition sqrt_exact_big (f : feature) (pf : profile) (x : Z) : res (option Z) :=
  if x =? 0 then Ret (Some 0)
  else if x <? 2 ^ 64 then sqrt_exact_prim pf 64 x
  else
    let shift := ztz x in
    if Z.land shift 1 =? 1 then Ret None
    else if negb (Z.land (Z.shiftr x shift) 7 =? 1) then Ret None
    else
      ok <- quad_filter f pf x ;;
      if ok then nth_root_exact x 2 else Ret None.

(** src/integer.rs:106-137 cbrt_exact for BigUint *)
Definition cbrt_exact_big (f : feature) (pf : profile) (x : Z) : res (option Z) :=
  if x =? 0 then Ret (Some 0)
  else if x <? 2 ^ 64 then cbrt_exact_prim x
  else
    let shift := ztz x in
    if negb (shift mod 3 =? 0) then Ret None
    else
      ok <- cubic_filter f pf x ;;
      if ok then nth_root_exact x 3 else Ret None.

(** src/integer.rs:142-146 sqrt_exact for BigInt ([to_biguint] is None for negatives) *)
Definition sqrt_exact_bigint (f : feature) (pf : profile) (x : Z) : res (option Z) :=
  if x <? 0 then Ret None else sqrt_exact_big f pf x.

(** src/integer.rs:147-152 cbrt_exact for BigInt (on the magnitude, sign restored) *)
Definition cbrt_exact_bigint (f : feature) (pf : profile) (x : Z) : res (option Z) :=
  r <- cbrt_exact_big f pf (Z.abs x) ;;
  Ret (match r with Some v => Some (if x <? 0 then - v else v) | None => None end).

(** The sqrt_exact / cbrt_exact in force at an unsigned type. *)
Definition sqrt_exact (f : feature) (pf : profile) (t : ity) (x : Z) : res (option Z) :=
  match t with U w => sqrt_exact_prim pf w x | Big => sqrt_exact_big f pf x end.
Definition cbrt_exact (f : feature) (pf : profile) (t : ity) (x : Z) : res (option Z) :=
  match t with U w => cbrt_exact_prim x | Big => cbrt_exact_big f pf x end.
