(** * The exhaustive search of PPsp2.v: the search itself, its soundness, its result. *)
From Coq Require Import ZArith Znumtheory List Lia Bool Sorted Zpow_facts Uint63.
From Verif Require Import Base Spec Ext NT PBase Tables PTables NTPock NTRabin PExact PPsp PPsp2.
Import ListNotations.
Local Open Scope Z_scope.
Local Notation V := Uint63.to_Z.

(** ** One cofactor: P m is no strong pseudoprime, or m has a prime factor below 12 *)
Definition chk (P m : int) : bool :=
  if (m mod 3 =? 0)%uint63 then true else if (m mod 5 =? 0)%uint63 then true else if (m mod 7 =? 0)%uint63 then true else if (m mod 11 =? 0)%uint63 then true else
  let n := (P * m)%uint63 in
  if (pow2 6 (n - 1) m =? 1)%uint63 then (if strongi 2 n then if strongi 7 n then negb (strongi 61 n) else true else true) else true.
(** the cofactors m, m + L, m + 2 L, ... up to mx (at most 2^d of them); h is L 2^(d-1) *)
Fixpoint enum (d : nat) (P mx h m : int) : bool :=
  if (mx <? m)%uint63 then true else
  match d with O => chk P m | S d' => let h' := (h >> 1)%uint63 in if enum d' P mx h' m then enum d' P mx h' (m + h)%uint63 else false end.
Fixpoint egcd (k : nat) (L r0 s0 r1 s1 : int) : int :=
  match k with
  | O => s0
  | S k' => if (r1 =? 0)%uint63 then s0 else let q := (r0 / r1)%uint63 in egcd k' L r1 s1 (r0 - q * r1)%uint63 ((s0 + (L - (q * s1) mod L)) mod L)%uint63
  end.
Definition inv (P L : int) : int := egcd 100 L (P mod L)%uint63 1%uint63 L 0%uint63.
Definition top : int := 4294967295%uint63.
(** a prime cofactor divides a^(P-1) - 1 for every base a, hence the greatest common divisor of these *)
Fixpoint strip1 (k : nat) (d G : Z) : Z := match k with O => G | S k' => if G mod d =? 0 then strip1 k' d (G / d) else G end.
Fixpoint strip (ds : list int) (P : int) (G : Z) : bool :=
  if G =? 1 then true else
  match ds with
  | [] => false
  | d :: ds' => let z := to_Z d in if G mod z =? 0 then (if chk P d then strip ds' P (strip1 200 z (G / z)) else false) else strip ds' P G
  end.
Definition hints : list int := [1033; 1201; 1297; 1423]%uint63.
Definition gcd3 (p : Z) : Z := let A := 2 ^ (p - 1) - 1 in let B := Z.gcd A (Zpow_mod 7 (p - 1) A - 1) in Z.gcd B (Zpow_mod 61 (p - 1) B - 1).
Definition trials : list int := divisors ++ hints.
Notation pchk P := (strip trials P (gcd3 (to_Z P))).
(** the next prime factor: every prime r of the list with r^2 at most mx *)
Fixpoint branch (f : int -> int -> list (int * int) -> bool) (P L mx : int) (s : list (int * int)) : bool :=
  match s with
  | [] => true
  | (r, Lr) :: s' => if (mx <? r * r)%uint63 then true else if f (P * r)%uint63 (L * (Lr / gcd L Lr))%uint63 s' then branch f P L mx s' else false
  end.
(** all cofactors up to mx that are 1 / P modulo L *)
Definition inverse (P L mx m0 : int) : bool := (mx / L <? 262144)%uint63 && (m0 <? L)%uint63 && (mulm (P mod L) m0 L =? 1 mod L)%uint63.
Definition listed (P L mx : int) (d : nat) (m0 : int) : bool := if inverse P L mx m0 then enum d P mx (L << 17)%uint63 m0 else false.
(** the multiples of P whose other prime factors are larger than those of P; L divides n - 1 *)
Fixpoint node (dep : nat) (P L : int) (suf : list (int * int)) : bool :=
  match dep with
  | O => false
  | S dep' =>
    let mx := (top / P)%uint63 in
    if match suf with [] => false | (r, _) :: _ => (mx <? r)%uint63 end then true
    else if negb (L <? 1099511627776)%uint63 then false
    else if (1 <? gcd P L)%uint63 then true
    else if (mx / L <=? P * P / 4)%uint63 || (mx / L <=? 200)%uint63 then listed P L mx 18 (inv P L)
    else if pchk P then branch (node dep') P L mx suf
    else false
  end.
Fixpoint tops (s : list (int * int)) : bool := match s with [] => true | (p, L) :: s' => if node 8 p L s' then tops s' else false end.
Lemma search : tops tab = true.
Proof. vm_compute. reflexivity. Qed.
