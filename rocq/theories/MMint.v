(** * The operations of Mint (src/mint.rs) that the library itself never calls. *)
From Coq Require Import ZArith List Bool.
From Verif Require Import Base Ext MInteger Ops.
Local Open Scope Z_scope.

(** num_integer::Integer::lcm on unsigned integers: 0 if both are 0, else a * (b / gcd) *)
Definition ext_lcm (pf : profile) (t : ity) (a b : Z) : res Z :=
  if (a =? 0) && (b =? 0) then Ret 0 else mul_ pf t a (b / Z.gcd a b).

(** src/mint.rs:46-63 forward_binops_left_ref_only: plain operands only *)
Definition mint_left2 {A} (f : Z -> Z -> res A) (x y : mint) : res A :=
  match x, y with ML a, ML b => f a b | _, _ => Panic end.
(** src/mint.rs:340 div_floor, 341 mod_floor (on unsigned integers / and %), 342 lcm,
    343 divides (the deprecated synonym of is_multiple_of), 349-353 div_rem *)
Definition mint_div_floor : mint -> mint -> res mint := mint_left2 (fun a b => r <- div_ a b ;; Ret (ML r)).
Definition mint_mod_floor : mint -> mint -> res mint := mint_left2 (fun a b => r <- rem_ a b ;; Ret (ML r)).
Definition mint_lcm (pf : profile) (t : ity) : mint -> mint -> res mint := mint_left2 (fun a b => r <- ext_lcm pf t a b ;; Ret (ML r)).
Definition mint_divides : mint -> mint -> res bool := mint_left2 (fun a b => r <- rem_ a b ;; Ret (r =? 0)).
Definition mint_div_rem : mint -> mint -> res (mint * mint) :=
  mint_left2 (fun a b => q <- div_ a b ;; r <- rem_ a b ;; Ret (ML q, ML r)).
(** src/mint.rs:373-381 nth_root, 433-441 nth_root_exact: plain only *)
Definition mint_nth_root (x : mint) (k : Z) : res mint := mint_plain (fun a => r <- ext_nth_root a k ;; Ret (ML r)) x.
Definition mint_nth_root_exact (x : mint) (k : Z) : res (option mint) :=
  mint_plain (fun a => r <- nth_root_exact a k ;; Ret (option_map ML r)) x.
(** src/mint.rs:422-431 pow: plain only. The result is checked once; the intermediate squares of
    num_traits' pow never exceed it. *)
Definition mint_pow (pf : profile) (t : ity) (x : mint) (e : Z) : res mint :=
  mint_plain (fun a => r <- wrapz pf t (a ^ e) ;; Ret (ML r)) x.
(** src/mint.rs:400-420 to_u64, to_i64: the value, if it fits *)
Definition mint_to_u64 (x : mint) : option Z := if mint_val x <? 2 ^ 64 then Some (mint_val x) else None.
Definition mint_to_i64 (x : mint) : option Z := if mint_val x <? 2 ^ 63 then Some (mint_val x) else None.
(** src/mint.rs:563-565, 600-602 invm *)
Definition mint_invm (x m : mint) : res (option mint) := Panic.
