(** * Model of the result and configuration types of src/traits.rs. *)
From Coq Require Import ZArith List Bool.
Local Open Scope Z_scope.

(** src/traits.rs:20-31 Primality. The f32 payload of [Probable] is an abstract type [A];
    its arithmetic is a parameter of the functions that use it. *)
Inductive primality (A : Type) : Type := Yes | No | Probable (p : A).
Arguments Yes {A}.
Arguments No {A}.
Arguments Probable {A} p.

(** src/traits.rs:36-42 probably *)
Definition probably {A} (p : primality A) : bool :=
  match p with No => false | _ => true end.

(** src/traits.rs:48-59 bitand; [mul p p2] is [p * p2] *)
Definition prim_and {A} (mul : A -> A -> A) (x y : primality A) : primality A :=
  match x with
  | No => No
  | Yes => y
  | Probable p => match y with
                  | No => No
                  | Yes => Probable p
                  | Probable p2 => Probable (mul p p2)
                  end
  end.

(** src/traits.rs:65-76 bitor; [cor p p2] is [1. - (1. - p) * (1. - p2)] *)
Definition prim_or {A} (cor : A -> A -> A) (x y : primality A) : primality A :=
  match x with
  | No => y
  | Yes => Yes
  | Probable p => match y with
                  | No => Probable p
                  | Yes => Yes
                  | Probable p2 => Probable (cor p p2)
                  end
  end.

(** The f32 operations used on probabilities. *)
Record probs (A : Type) : Type := mkProbs {
  pr_one : A;                  (* 1. *)
  pr_mul : A -> A -> A;        (* p * q *)
  pr_trials : Z -> A;          (* 1. - 0.25f32.powi(k as i32) *)
  pr_lucas : A;                (* 1. - 4f32 / 15f32 *)
}.
Arguments pr_one {A} _. Arguments pr_mul {A} _ _ _. Arguments pr_trials {A} _ _.
Arguments pr_lucas {A} _.

(** src/traits.rs:80-96 PrimalityTestConfig *)
Record prime_config : Type := mkPC {
  sprp_trials : Z;
  sprp_random_trials : Z;
  slprp_test : bool;
  eslprp_test : bool;
}.
(** src/traits.rs:101-108 default, 121-129 bpsw, 115-119 strict *)
Definition pc_default : prime_config :=
  {| sprp_trials := 2; sprp_random_trials := 3; slprp_test := false; eslprp_test := false |}.
Definition pc_bpsw : prime_config :=
  {| sprp_trials := 1; sprp_random_trials := 0; slprp_test := true; eslprp_test := false |}.
Definition pc_strict : prime_config :=
  {| sprp_trials := sprp_trials pc_bpsw; sprp_random_trials := 1;
     slprp_test := slprp_test pc_bpsw; eslprp_test := eslprp_test pc_bpsw |}.

(** src/traits.rs:138-156 FactorizationConfig (pm1_trials and pp1_trials are private and never
    read; omitted) *)
Record factor_config : Type := mkFC {
  primality_config : prime_config;
  td_limit : option Z;
  rho_trials : Z;
}.
(** src/traits.rs:161-170 default, 175-179 strict *)
Definition fc_default : factor_config :=
  {| primality_config := pc_default; td_limit := Some (2 ^ 14); rho_trials := 4 |}.
Definition fc_strict : factor_config :=
  {| primality_config := pc_strict; td_limit := td_limit fc_default;
     rho_trials := rho_trials fc_default |}.
