(** * Dictionaries of integer operations.
    The Rust code is generic over the number type through trait bounds
    (src/primality.rs:344-end [PrimalityBase]/[PrimalityRefBase]); the model passes the operations in
    a record. Dictionaries are given for machine integers and BigUint ([uops]) and for
    the Montgomery wrapper [Mint] of src/mint.rs ([mops]). *)
From Coq Require Import ZArith List Bool.
From Verif Require Import Base Ext MInteger.
Import ListNotations.
Local Open Scope Z_scope.

Record ops (T : Type) : Type := mkOps {
  o_from : Z -> option T;           (* FromPrimitive::from_{u8,u16,u64,usize,isize} *)
  o_to_z : T -> Z;                  (* value, for ToPrimitive::to_{u8,u64,i64,isize,u128} *)
  o_add : T -> T -> res T;
  o_sub : T -> T -> res T;
  o_mul : T -> T -> res T;
  o_div : T -> T -> res T;
  o_rem : T -> T -> res T;
  o_eqb : T -> T -> res bool;
  o_ltb : T -> T -> res bool;
  o_is_zero : T -> bool;
  o_is_one : T -> bool;
  o_is_even : T -> bool;
  o_gcd : T -> T -> res T;
  o_is_multiple_of : T -> T -> res bool;
  o_sqrt : T -> res T;
  o_sqrt_exact : T -> res (option T);
  o_bits : T -> res Z;
  o_bit : T -> Z -> res bool;
  o_tz : T -> res Z;
  o_shr : T -> Z -> res T;
  o_addm : T -> T -> T -> res T;
  o_subm : T -> T -> T -> res T;
  o_mulm : T -> T -> T -> res T;
  o_negm : T -> T -> res T;
  o_dblm : T -> T -> res T;
  o_sqm : T -> T -> res T;
  o_powm : T -> T -> T -> res T;
  o_jacobi : T -> T -> res Z;
}.
Arguments o_from {T} _ _. Arguments o_to_z {T} _ _. Arguments o_add {T} _ _ _.
Arguments o_sub {T} _ _ _. Arguments o_mul {T} _ _ _. Arguments o_div {T} _ _ _.
Arguments o_rem {T} _ _ _. Arguments o_eqb {T} _ _ _. Arguments o_ltb {T} _ _ _.
Arguments o_is_zero {T} _ _. Arguments o_is_one {T} _ _. Arguments o_is_even {T} _ _.
Arguments o_gcd {T} _ _ _. Arguments o_is_multiple_of {T} _ _ _. Arguments o_sqrt {T} _ _.
Arguments o_sqrt_exact {T} _ _. Arguments o_bits {T} _ _. Arguments o_bit {T} _ _ _.
Arguments o_tz {T} _ _. Arguments o_shr {T} _ _ _. Arguments o_addm {T} _ _ _ _.
Arguments o_subm {T} _ _ _ _. Arguments o_mulm {T} _ _ _ _. Arguments o_negm {T} _ _ _.
Arguments o_dblm {T} _ _ _. Arguments o_sqm {T} _ _ _. Arguments o_powm {T} _ _ _ _.
Arguments o_jacobi {T} _ _ _.

(** [T::from_*(c).unwrap()] *)
Definition o_const {T} (O : ops T) (c : Z) : res T := unwrap (o_from O c).
(** [T::zero()], [T::one()]: always representable. *)
Definition o_zero {T} (O : ops T) : res T := o_const O 0.
Definition o_one {T} (O : ops T) : res T := o_const O 1.

(** ** Unsigned integers: uN and BigUint *)
Definition uops (f : feature) (pf : profile) (t : ity) : ops Z := {|
  o_from := from_prim t;
  o_to_z := fun x => x;
  o_add := add_ pf t;
  o_sub := sub_ pf t;
  o_mul := mul_ pf t;
  o_div := div_;
  o_rem := rem_;
  o_eqb := fun a b => Ret (a =? b);
  o_ltb := fun a b => Ret (a <? b);
  o_is_zero := fun a => a =? 0;
  o_is_one := fun a => a =? 1;
  o_is_even := Z.even;
  o_gcd := fun a b => Ret (ext_gcd a b);
  o_is_multiple_of := fun a b => r <- rem_ a b ;; Ret (r =? 0);
  o_sqrt := fun a => Ret (ext_sqrt a);
  o_sqrt_exact := sqrt_exact f pf t;
  o_bits := fun a => Ret (bt_bits a);
  o_bit := bt_bit pf t;
  o_tz := fun a => Ret (bt_trailing_zeros t a);
  o_shr := shr_ pf t;
  o_addm := ext_addm;
  o_subm := ext_subm;
  o_mulm := ext_mulm;
  o_negm := ext_negm;
  o_dblm := ext_dblm;
  o_sqm := ext_sqm;
  o_powm := ext_powm;
  o_jacobi := ext_jacobi;
|}.

(** ** Mint (src/mint.rs:21): either a plain integer or a residue in Montgomery form.
    [MR r m] stands for the ReducedInt with residue [r] modulo [m]; num_modular's Montgomery
    reducer asserts that the modulus is odd. *)
Inductive mint := ML (v : Z) | MR (r m : Z).

(** src/mint.rs:121-126 value / residue *)
Definition mint_val (x : mint) : Z := match x with ML v => v | MR r _ => r end.

(** ReducedInt::new(v, &m) *)
Definition reduced_new (v m : Z) : res mint :=
  if Z.odd m then Ret (MR (v mod m) m) else Panic.

(** src/mint.rs:84-92 eq: [unreachable!()] on mixed forms. Residues of different moduli trip the
    debug_assert inside ReducedInt; modelled as a panic. *)
Definition mint_eqb (x y : mint) : res bool :=
  match x, y with
  | ML a, ML b => Ret (a =? b)
  | MR a m, MR b m' => if m =? m' then Ret (a =? b) else Panic
  | _, _ => Panic
  end.
(** A failing debug_assert!: a panic in debug builds, and [r] is computed in release builds. *)
Definition unless_debug {A} (pf : profile) (r : res A) : res A := match pf with Debug => Panic | Release => r end.
(** src/mint.rs:95-106 partial_cmp, as used by [<]: compares values, in any mix of forms. Residues of different
    moduli trip the debug_assert. *)
Definition mint_ltb (pf : profile) (x y : mint) : res bool :=
  match x, y with
  | MR a m, MR b m' => if m =? m' then Ret (a <? b) else unless_debug pf (Ret (a <? b))
  | _, _ => Ret (mint_val x <? mint_val y)
  end.

(** src/mint.rs:130-209 Add, Sub, Mul: plain on two plain integers, otherwise in the residue ring
    (a plain operand is converted). Residues of different moduli trip a check inside num_modular, which exists in
    debug builds only; modelled as a panic (in release builds the result is unspecified). *)
Definition mint_binop (plain : Z -> Z -> res Z) (modular : Z -> Z -> Z) (x y : mint) : res mint :=
  match x, y with
  | ML a, ML b => r <- plain a b ;; Ret (ML r)
  | ML a, MR b m => Ret (MR (modular (a mod m) b mod m) m)
  | MR a m, ML b => Ret (MR (modular a (b mod m) mod m) m)
  | MR a m, MR b m' => if m =? m' then Ret (MR (modular a b mod m) m) else Panic
  end.
(** src/mint.rs:211-253 Div: plain integers only *)
Definition mint_div (x y : mint) : res mint :=
  match x, y with ML a, ML b => r <- div_ a b ;; Ret (ML r) | _, _ => Panic end.
(** src/mint.rs:255-314 Rem: plain % plain converts into the residue form; a residue is left alone *)
Definition mint_rem (pf : profile) (x y : mint) : res mint :=
  match x, y with
  | ML a, ML m => reduced_new a m
  | MR a m, ML m' => if m =? m' then Ret (MR a m) else unless_debug pf (Ret (MR a m))
  | _, _ => Panic
  end.
(** src/mint.rs:347-371 gcd: on values, result plain; is_multiple_of: plain only. For the divisor 0 num-integer
    0.1.44 panics in the remainder, as modelled here and in [o_is_multiple_of] above; later versions return whether
    the number is 0. No theorem reaches that case. *)
Definition mint_gcd (x y : mint) : res mint := Ret (ML (ext_gcd (mint_val x) (mint_val y))).
Definition mint_is_multiple_of (x y : mint) : res bool :=
  match x, y with ML a, ML b => r <- rem_ a b ;; Ret (r =? 0) | _, _ => Panic end.
(** src/mint.rs:373-381 Roots, 433-441 ExactRoots (sqrt_exact is the default nth_root_exact(2)) *)
Definition mint_sqrt (x : mint) : res mint :=
  match x with ML a => Ret (ML (ext_sqrt a)) | MR _ _ => Panic end.
Definition mint_sqrt_exact (x : mint) : res (option mint) :=
  match x with
  | ML a => r <- nth_root_exact a 2 ;; Ret (match r with Some v => Some (ML v) | None => None end)
  | MR _ _ => Panic
  end.
(** src/mint.rs:443-486 BitTest, Shr: plain only *)
Definition mint_plain {A} (f : Z -> res A) (x : mint) : res A :=
  match x with ML a => f a | MR _ _ => Panic end.
(** src/mint.rs:488-555 addm, subm, mulm: residue, residue, plain modulus. In release builds the modulus given is
    not looked at; residues of two different moduli as in [mint_binop]. *)
Definition mint_coreop (pf : profile) (f : Z -> Z -> Z) (x y m : mint) : res mint :=
  match x, y, m with
  | MR a m1, MR b m2, ML m' =>
      if (m1 =? m') && (m2 =? m') then Ret (MR (f a b mod m') m')
      else unless_debug pf (if m1 =? m2 then Ret (MR (f a b mod m1) m1) else Panic)
  | _, _, _ => Panic
  end.
(** src/mint.rs:557-636 negm, dblm, sqm: plain or residue operand, plain modulus *)
Definition mint_unop (pf : profile) (f : Z -> Z) (x m : mint) : res mint :=
  match x, m with
  | ML a, ML m' => r <- reduced_new a m' ;;
                   (match r with MR a' _ => Ret (MR (f a' mod m') m') | _ => Panic end)
  | MR a m1, ML m' => if m1 =? m' then Ret (MR (f a mod m') m') else unless_debug pf (Ret (MR (f a mod m1) m1))
  | _, _ => Panic
  end.
(** src/mint.rs:638-665 checked_jacobi (jacobi panics when it is None) *)
Definition mint_jacobi (x n : mint) : res Z :=
  match n with ML n' => ext_jacobi (mint_val x) n' | MR _ _ => Panic end.
(** src/mint.rs:667-680 powm *)
Definition mint_powm (pf : profile) (x e m : mint) : res mint :=
  match x, e, m with
  | ML a, ML e', ML m' => if Z.odd m' then r <- ext_powm a e' m' ;; Ret (MR r m') else Panic
  | MR a m1, ML e', ML m' =>
      if m1 =? m' then r <- ext_powm a e' m' ;; Ret (MR r m') else unless_debug pf (r <- ext_powm a e' m1 ;; Ret (MR r m1))
  | _, _, _ => Panic
  end.

(** SmallMint<uN> = Mint<uN, Montgomery<uN, uN>> (src/mint.rs:682);
    FromPrimitive / ToPrimitive are src/mint.rs:383-420. *)
Definition mops (pf : profile) (t : ity) : ops mint := {|
  o_from := fun c => option_map ML (from_prim t c);
  o_to_z := mint_val;
  o_add := mint_binop (add_ pf t) Z.add;
  o_sub := mint_binop (sub_ pf t) Z.sub;
  o_mul := mint_binop (mul_ pf t) Z.mul;
  o_div := mint_div;
  o_rem := mint_rem pf;
  o_eqb := mint_eqb;
  o_ltb := mint_ltb pf;
  o_is_zero := fun x => mint_val x =? 0;
  o_is_one := fun x => mint_val x =? 1;
  o_is_even := fun x => Z.even (mint_val x);
  o_gcd := mint_gcd;
  o_is_multiple_of := mint_is_multiple_of;
  o_sqrt := mint_sqrt;
  o_sqrt_exact := mint_sqrt_exact;
  o_bits := mint_plain (fun a => Ret (bt_bits a));
  o_bit := fun x i => mint_plain (fun a => bt_bit pf t a i) x;
  o_tz := mint_plain (fun a => Ret (bt_trailing_zeros t a));
  o_shr := fun x k => mint_plain (fun a => r <- shr_ pf t a k ;; Ret (ML r)) x;
  o_addm := mint_coreop pf Z.add;
  o_subm := mint_coreop pf Z.sub;
  o_mulm := mint_coreop pf Z.mul;
  o_negm := mint_unop pf Z.opp;
  o_dblm := mint_unop pf (fun a => 2 * a);
  o_sqm := mint_unop pf (fun a => a * a);
  o_powm := mint_powm pf;
  o_jacobi := mint_jacobi;
|}.
