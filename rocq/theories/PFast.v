(** * The Lucas tests with the Jacobi symbol computed by the Euclidean algorithm (NTRecip.v): the same function as the
    model of MPrimality.v, in a form that can be evaluated on large numbers. No further code is modelled here. *)
From Coq Require Import ZArith Znumtheory List Lia Bool.
From Verif Require Import Base Tables Spec Ext NT PBase MInteger Ops MPrimality NTRecip.
Import ListNotations.
Local Open Scope Z_scope.

Definition fast_ext_jacobi (a n : Z) : res Z := if Z.odd n then Ret (fast_jacobi a n) else Panic.
Lemma fast_ext_eq : forall a n, fast_ext_jacobi a n = ext_jacobi a n.
Proof. intros a n. unfold fast_ext_jacobi, ext_jacobi. rewrite fast_jacobi_eq. reflexivity. Qed.
Definition fops (f : feature) (pf : profile) (t : ity) : ops Z :=
  let u := uops f pf t in
  {| o_from := o_from u; o_to_z := o_to_z u; o_add := o_add u; o_sub := o_sub u; o_mul := o_mul u; o_div := o_div u; o_rem := o_rem u;
     o_eqb := o_eqb u; o_ltb := o_ltb u; o_is_zero := o_is_zero u; o_is_one := o_is_one u; o_is_even := o_is_even u; o_gcd := o_gcd u;
     o_is_multiple_of := o_is_multiple_of u; o_sqrt := o_sqrt u; o_sqrt_exact := o_sqrt_exact u; o_bits := o_bits u; o_bit := o_bit u; o_tz := o_tz u;
     o_shr := o_shr u; o_addm := o_addm u; o_subm := o_subm u; o_mulm := o_mulm u; o_negm := o_negm u; o_dblm := o_dblm u; o_sqm := o_sqm u;
     o_powm := o_powm u; o_jacobi := fast_ext_jacobi |}.

Section Fast.
Variables (f : feature) (pf : profile) (t : ity).
Notation U := (uops f pf t).
Notation F := (fops f pf t).
Lemma fast_selfridge : forall fuel n d neg, selfridge_loop pf F fuel n d neg = selfridge_loop pf U fuel n d neg.
Proof.
  induction fuel as [|k IH]; intros n d neg; [reflexivity|]. cbn [selfridge_loop].
  change (o_const F) with (o_const U). change (o_eqb F) with (o_eqb U). change (is_square F) with (is_square U). change (o_negm F) with (o_negm U).
  change (o_jacobi F) with fast_ext_jacobi. change (o_jacobi U) with ext_jacobi. change (to_isize F) with (to_isize U). change (o_add F) with (o_add U).
  destruct (o_const U 13) as [c| |]; [cbn [bind] | reflexivity..]. destruct (o_eqb U d c) as [b| |]; [cbn [bind] | reflexivity..].
  destruct (if b then is_square U n else Ret false) as [[|]| |]; [reflexivity | cbn [bind] | reflexivity..].
  destruct (if neg then o_negm U d n else Ret d) as [sd| |]; [cbn [bind] | reflexivity..]. rewrite fast_ext_eq. destruct (ext_jacobi sd n) as [j| |]; [cbn [bind] | reflexivity..].
  destruct (if j =? 0 then o_eqb U d n else Ret true) as [[|]| |]; [cbn [bind negb] | reflexivity..]. destruct (j =? -1); [reflexivity|].
  destruct (o_const U 2) as [two| |]; [cbn [bind] | reflexivity..]. destruct (o_add U d two) as [d'| |]; [cbn [bind] | reflexivity..]. apply IH.
Qed.
Lemma fast_bruteforce : forall fuel n p, bruteforce_loop pf F fuel n p = bruteforce_loop pf U fuel n p.
Proof.
  induction fuel as [|k IH]; intros n p; [reflexivity|]. cbn [bruteforce_loop].
  change (o_const F) with (o_const U). change (o_eqb F) with (o_eqb U). change (is_square F) with (is_square U).
  change (o_jacobi F) with fast_ext_jacobi. change (o_jacobi U) with ext_jacobi.
  destruct (if p =? 10 then is_square U n else Ret false) as [[|]| |]; [reflexivity | cbn [bind] | reflexivity..].
  destruct (mul_ pf usize p p) as [pp| |]; [cbn [bind] | reflexivity..]. destruct (sub_ pf usize pp 4) as [pp4| |]; [cbn [bind] | reflexivity..].
  destruct (o_const U pp4) as [d| |]; [cbn [bind] | reflexivity..]. rewrite fast_ext_eq. destruct (ext_jacobi d n) as [j| |]; [cbn [bind] | reflexivity..].
  destruct (if j =? 0 then o_eqb U d n else Ret true) as [[|]| |]; [cbn [bind negb] | reflexivity..]. destruct (j =? -1); [reflexivity|].
  destruct (add_ pf usize p 1) as [p'| |]; [cbn [bind] | reflexivity..]. apply IH.
Qed.
Lemma fast_delta : forall n p q, lucas_delta pf F n p q = lucas_delta pf U n p q.
Proof.
  intros n p q. unfold lucas_delta. change (o_const F) with (o_const U). change (o_negm F) with (o_negm U). change (o_one F) with (o_one U). change (o_add F) with (o_add U). change (o_sub F) with (o_sub U).
  change (o_jacobi F) with fast_ext_jacobi. change (o_jacobi U) with ext_jacobi.
  destruct (mul_ pf usize p p) as [pp| |]; [cbn [bind] | reflexivity..]. destruct (wrap_isize pf (4 * q)) as [q4| |]; [cbn [bind] | reflexivity..].
  destruct (wrap_isize pf (as_isize pp - q4)) as [d| |]; [cbn [bind] | reflexivity..]. 
  match goal with |- context [if 0 <? d then ?a else ?b] => destruct (if 0 <? d then a else b) as [dd| |]; [cbn [bind] | reflexivity..] end.
  rewrite fast_ext_eq. reflexivity.
Qed.
Lemma fast_params : forall fuel n p q, lucas_params pf F fuel n p q = lucas_params pf U fuel n p q.
Proof.
  intros fuel n p q. unfold lucas_params, pq_selfridge. change (o_const F) with (o_const U). destruct p, q; try reflexivity.
  all: destruct (o_const U 5) as [c| |]; [cbn [bind] | reflexivity..]; rewrite fast_selfridge; reflexivity.
Qed.
Theorem fast_lprp : forall fuel n p q, is_lprp pf F fuel n p q = is_lprp pf U fuel n p q.
Proof.
  intros fuel n p q. unfold is_lprp. rewrite fast_params. change (lucasm pf F) with (lucasm pf U). change (o_one F) with (o_one U). change (o_ltb F) with (o_ltb U). change (o_is_even F) with (o_is_even U). change (o_is_zero F) with (o_is_zero U).
  destruct (o_one U) as [one| |]; [cbn [bind] | reflexivity..]. destruct (o_ltb U n one) as [[|]| |]; [reflexivity | cbn [bind] | reflexivity..]. destruct (o_is_even U n); [reflexivity|].
  destruct (lucas_params pf U fuel n p q) as [[[p' q']|]| |]; [cbn [bind] | reflexivity..]. rewrite fast_delta. reflexivity.
Qed.
Theorem fast_slprp : forall fuel n p q, is_slprp pf F fuel n p q = is_slprp pf U fuel n p q.
Proof.
  intros fuel n p q. unfold is_slprp. rewrite fast_params. change (lucasm pf F) with (lucasm pf U). change (o_one F) with (o_one U). change (o_ltb F) with (o_ltb U). change (o_is_even F) with (o_is_even U). change (slprp_loop F) with (slprp_loop U).
  destruct (o_one U) as [one| |]; [cbn [bind] | reflexivity..]. destruct (o_ltb U n one) as [[|]| |]; [reflexivity | cbn [bind] | reflexivity..]. destruct (o_is_even U n); [reflexivity|].
  destruct (lucas_params pf U fuel n p q) as [[[p' q']|]| |]; [cbn [bind] | reflexivity..]. rewrite fast_delta. reflexivity.
Qed.
Theorem fast_eslprp : forall fuel n p, is_eslprp pf F fuel n p = is_eslprp pf U fuel n p.
Proof.
  intros fuel n p. unfold is_eslprp, p_bruteforce. rewrite fast_bruteforce. change (lucasm pf F) with (lucasm pf U). change (o_one F) with (o_one U). change (o_ltb F) with (o_ltb U). change (o_is_even F) with (o_is_even U). change (eslprp_loop F) with (eslprp_loop U).
  destruct (o_one U) as [one| |]; [cbn [bind] | reflexivity..]. destruct (o_ltb U n one) as [[|]| |]; [reflexivity | cbn [bind] | reflexivity..]. destruct (o_is_even U n); [reflexivity|].
  destruct (match p with Some sp => Ret sp | None => bruteforce_loop pf U fuel n 3 end) as [sp| |]; [cbn [bind] | reflexivity..]. destruct (match p with Some _ => false | None => sp =? 0 end); [reflexivity|]. rewrite fast_delta. reflexivity.
Qed.
End Fast.
