(** * Model of the probability payload of [Primality::Probable]: Rust's f32 (IEEE 754 binary32, round
    to nearest even; Flocq's formalization). *)
From Coq Require Import ZArith.
From Flocq Require Import Core BinarySingleNaN.
From Verif Require Import Base MTraits.
Local Open Scope Z_scope.

#[global] Instance prec24 : Prec_gt_0 24 := eq_refl.
#[global] Instance emax128 : Prec_lt_emax 24 128 := eq_refl.
Definition f32 : Type := binary_float 24 128.
Definition pmul : f32 -> f32 -> f32 := Bmult mode_NE.
Definition psub : f32 -> f32 -> f32 := Bminus mode_NE.
Definition pdiv : f32 -> f32 -> f32 := Bdiv mode_NE.
(** the literals [1.], [0.25f32], [4f32], [15f32]: m * 2^e, exactly representable *)
Definition plit (m e : Z) : f32 := binary_normalize 24 128 _ _ mode_NE m e false.
Definition p_one : f32 := plit 1 0.
Definition p_quarter : f32 := plit 1 (-2).

(** src/traits.rs:73: [1. - (1. - p) * (1. - p2)] *)
Definition p_or (p p2 : f32) : f32 := psub p_one (pmul (psub p_one p) (psub p_one p2)).

(** src/buffer.rs:71, 82: [k as i32] of a usize keeps the low 32 bits *)
Definition as_i32 (k : Z) : Z := let m := k mod 2 ^ 32 in if m <? 2 ^ 31 then m else m - 2 ^ 32.
(** src/buffer.rs:71, 82: [powi]. Rust leaves its rounding unspecified; this is the routine it compiles
    to (__powisf2 of compiler-rt): square and multiply on |b|, then the reciprocal if b < 0. 32 steps
    suffice for an i32. *)
Fixpoint powi_loop (steps : nat) (a : f32) (b : Z) (r : f32) : f32 :=
  match steps with
  | O => r
  | S s => let r := if Z.odd b then pmul r a else r in
           let b := Z.quot b 2 in
           if b =? 0 then r else powi_loop s (pmul a a) b r
  end.
Definition powi (a : f32) (b : Z) : f32 :=
  let r := powi_loop 32 a b p_one in if b <? 0 then pdiv p_one r else r.

(** src/buffer.rs:65, 71, 82, 93, 99 *)
Definition probs32 : probs f32 :=
  {| pr_one := p_one;
     pr_mul := pmul;
     pr_trials := fun k => psub p_one (powi p_quarter (as_i32 k));
     pr_lucas := psub p_one (pdiv (plit 4 0) (plit 15 0)) |}.
