(** * External dependencies of num-prime, by contract.
    The sources of these crates are not in /repo; each definition below is the documented
    meaning of the function it stands for. They are part of the trusted base. *)
From Coq Require Import ZArith Zpow_facts List Bool.
From Verif Require Import Base Spec.
Import ListNotations.
Local Open Scope Z_scope.

(** num_integer::Integer::gcd *)
Definition ext_gcd (a b : Z) : Z := Z.gcd a b.

(** num_integer::Roots::sqrt: floor of the square root (argument >= 0). *)
Definition ext_sqrt (n : Z) : Z := Z.sqrt n.

(** num_integer::Roots::nth_root for n >= 0, k >= 1: greatest r with r^k <= n,
    computed bit by bit from the top. *)
Fixpoint iroot_bits (k n : Z) (i : nat) (r : Z) : Z :=
  match i with
  | O => r
  | S j => let r' := r + 2 ^ Z.of_nat j in
           iroot_bits k n j (if r' ^ k <=? n then r' else r)
  end.
Definition iroot (k n : Z) : Z := iroot_bits k n (Z.to_nat (Z.log2 n / k + 1)) 0.

(** ... extended to negative arguments and odd k ([Roots] for signed integers);
    degree 0 and even roots of negative numbers panic. *)
Definition ext_nth_root (n k : Z) : res Z :=
  if k <=? 0 then Panic
  else if 0 <=? n then Ret (iroot k n)
  else if Z.odd k then Ret (- iroot k (- n)) else Panic.

(** num_modular::ModularOps on unsigned integers: results are the exact residues;
    a zero modulus panics (division by zero). *)
Definition ext_addm (a b m : Z) : res Z := rem_ (a + b) m.
Definition ext_subm (a b m : Z) : res Z := rem_ (a - b) m.
Definition ext_mulm (a b m : Z) : res Z := rem_ (a * b) m.
Definition ext_dblm (a m : Z) : res Z := rem_ (2 * a) m.
Definition ext_sqm (a m : Z) : res Z := rem_ (a * a) m.
Definition ext_negm (a m : Z) : res Z := rem_ (- a) m.
(** [Zpow_mod b e m] is [b ^ e mod m] computed by repeated squaring (Coq stdlib). *)
Definition ext_powm (b e m : Z) : res Z := if m =? 0 then Panic else Ret (Zpow_mod b e m).
(** ModularSymbols::jacobi: panics unless the modulus is odd. *)
Definition ext_jacobi (a n : Z) : res Z := if Z.odd n then Ret (jacobi a n) else Panic.

(** Binary digits. [ztz n] = exponent of 2 in n > 0. *)
Fixpoint ptz (p : positive) : Z :=
  match p with xO q => 1 + ptz q | _ => 0 end.
Definition ztz (n : Z) : Z := match n with Zpos p => ptz p | Zneg p => ptz p | Z0 => 0 end.

(** num_modular::PreInv<u64> division ([DivExact for u64]):
    q = n.wrapping_mul(d_inv); if q <= q_lim then Some(q) else None. *)
Definition preinv_div64 (n : Z) (pre : Z * Z) : option Z :=
  let q := (n * fst pre) mod 2 ^ 64 in
  if q <=? snd pre then Some q else None.

(** [DivExact<u64, PreInv<u64>> for u128]: two-word exact division (GNU factor):
    low quotient word, borrow of its high product word, then the one-word test on the rest. *)
Definition preinv_div128 (n d : Z) (pre : Z * Z) : option Z :=
  let n0 := n mod 2 ^ 64 in
  let n1 := n / 2 ^ 64 in
  let q0 := (n0 * fst pre) mod 2 ^ 64 in
  let nr0 := (q0 * d) / 2 ^ 64 in
  if n1 <? nr0 then None
  else let q1 := ((n1 - nr0) * fst pre) mod 2 ^ 64 in
       if q1 <=? snd pre then Some (q0 + q1 * 2 ^ 64) else None.

(** slice::binary_search on a strictly sorted slice: [Found i] iff element [i] is the key,
    otherwise [NotFound i] with the insertion point. *)
Inductive search := Found (i : nat) | NotFound (i : nat).
Fixpoint bsearch_from (i : nat) (l : list Z) (x : Z) : search :=
  match l with
  | [] => NotFound i
  | y :: l' => if y <? x then bsearch_from (S i) l' x
               else if y =? x then Found i else NotFound i
  end.
Definition bsearch (l : list Z) (x : Z) : search := bsearch_from 0 l x.

(** Slice indexing. *)
Definition index {A} (l : list A) (i : Z) : res A :=
  if i <? 0 then Panic else unwrap (nth_error l (Z.to_nat i)).

(** std::collections::BTreeMap<T, usize> as a strictly sorted association list. *)
Fixpoint bt_get (m : list (Z * Z)) (k : Z) : option Z :=
  match m with
  | [] => None
  | (k', v) :: m' => if k' =? k then Some v else bt_get m' k
  end.
(** [map.insert(k, v)] (replaces an existing value) *)
Fixpoint bt_insert (m : list (Z * Z)) (k v : Z) : list (Z * Z) :=
  match m with
  | [] => [(k, v)]
  | (k', v') :: m' => if k <? k' then (k, v) :: m
                      else if k =? k' then (k, v) :: m'
                      else (k', v') :: bt_insert m' k v
  end.
(** [*map.entry(k).or_insert(0) += e] *)
Definition bt_add (m : list (Z * Z)) (k e : Z) : list (Z * Z) :=
  match bt_get m k with
  | Some v => bt_insert m k (v + e)
  | None => bt_insert m k e
  end.
