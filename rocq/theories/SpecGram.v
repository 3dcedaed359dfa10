(** * Riemann's R function, by Gram's series *)
From Coq Require Import Reals.
Local Open Scope R_scope.

(** the series a 0 + a 1 + ... converges to s *)
Definition series_is (a : nat -> R) (s : R) : Prop := Un_cv (sum_f_R0 a) s.
(** zeta(s) = 1 + 1/2^s + 1/3^s + ... *)
Definition zeta_is (s : nat) (v : R) : Prop := series_is (fun m => / INR (S m) ^ s) v.
(** R(x) = 1 + sum over k >= 1 of (ln x)^k / (k k! zeta(k+1)) *)
Definition riemann_R_is (x r : R) : Prop :=
  exists Z : nat -> R, (forall k, (1 <= k)%nat -> zeta_is (S k) (Z k)) /\
    series_is (fun i => ln x ^ S i / (INR (S i) * INR (fact (S i)) * Z (S i))) (r - 1).
