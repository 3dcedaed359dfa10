(** * Powers and Lucas sequences modulo large numbers, on the Bignums library. *)
From Coq Require Import ZArith Znumtheory Lia.
From Bignums Require Import BigZ.
From Verif Require Import Base Spec NTLucas.
Local Open Scope Z_scope.
Local Notation "[ x ]" := (BigZ.to_Z x).

(** b^e mod m *)
Fixpoint bpow (m b : BigZ.t) (e : positive) : BigZ.t :=
  match e with
  | xH => BigZ.modulo b m
  | xO e' => let x := bpow m b e' in BigZ.modulo (BigZ.mul x x) m
  | xI e' => let x := bpow m b e' in BigZ.modulo (BigZ.mul (BigZ.modulo (BigZ.mul x x) m) b) m
  end.
Lemma bpow_spec : forall m b e, [bpow m b e] = [b] ^ Zpos e mod [m].
Proof.
  intros m b. induction e as [e IH|e IH|]; cbn [bpow]; cbv zeta.
  - rewrite BigZ.spec_modulo, BigZ.spec_mul, BigZ.spec_modulo, BigZ.spec_mul, IH.
    rewrite Zmult_mod_idemp_l. rewrite <- (Zmult_mod_idemp_l (_ mod _ * _) [b]), <- Zmult_mod, Zmult_mod_idemp_l. f_equal.
    rewrite Pos2Z.inj_xI, Z.pow_add_r, Z.pow_1_r, Z.pow_mul_r by lia. rewrite (Z.pow_2_r [b]), Z.pow_mul_l. ring.
  - rewrite BigZ.spec_modulo, BigZ.spec_mul, IH, <- Zmult_mod. f_equal. rewrite Pos2Z.inj_xO, Z.pow_mul_r by lia. rewrite (Z.pow_2_r [b]), Z.pow_mul_l. reflexivity.
  - rewrite BigZ.spec_modulo, Z.pow_1_r. reflexivity.
Qed.
Definition zbpow (m b e : Z) : Z := [bpow (BigZ.of_Z m) (BigZ.of_Z b) (Z.to_pos e)].
Lemma zbpow_spec : forall m b e, 1 <= e -> zbpow m b e = b ^ e mod m.
Proof. intros m b e He. unfold zbpow. rewrite bpow_spec, !BigZ.spec_of_Z, Z2Pos.id by lia. reflexivity. Qed.

(** (U_e, U_{e+1}) mod m *)
Fixpoint bluc (m P Q : BigZ.t) (e : positive) : BigZ.t * BigZ.t :=
  match e with
  | xH => (BigZ.modulo BigZ.one m, BigZ.modulo P m)
  | xO e' => let '(u, w) := bluc m P Q e' in
      (BigZ.modulo (BigZ.mul u (BigZ.sub (BigZ.add w w) (BigZ.mul P u))) m, BigZ.modulo (BigZ.sub (BigZ.mul w w) (BigZ.mul Q (BigZ.mul u u))) m)
  | xI e' => let '(u, w) := bluc m P Q e' in
      (BigZ.modulo (BigZ.sub (BigZ.mul w w) (BigZ.mul Q (BigZ.mul u u))) m,
       BigZ.modulo (BigZ.mul w (BigZ.sub (BigZ.mul P w) (BigZ.mul (BigZ.add Q Q) u))) m)
  end.
Lemma mod_eqm : forall m a b, m <> 0 -> (exists k, a - b = k * m) -> a mod m = b mod m.
Proof. intros m a b Hm [k E]. replace a with (b + k * m) by lia. apply Z_mod_plus_full. Qed.
Lemma bluc_spec : forall m P Q e, 0 < [m] ->
  [fst (bluc m P Q e)] = lucasU [P] [Q] (Zpos e) mod [m] /\ [snd (bluc m P Q e)] = lucasU [P] [Q] (Zpos e + 1) mod [m].
Proof.
  intros m P Q e Hm.
  assert (D : forall x, exists k, x mod [m] = x + k * [m]) by (intros x; exists (- (x / [m])); pose proof (Z.div_mod x [m] ltac:(lia)); lia).
  induction e as [e IH|e IH|]; cbn [bluc].
  - destruct (bluc m P Q e) as [u w]. cbn [fst snd] in *. destruct IH as [Eu Ew]. rewrite !BigZ.spec_modulo, !BigZ.spec_sub, !BigZ.spec_mul, ?BigZ.spec_sub, ?BigZ.spec_mul, ?BigZ.spec_add, Eu, Ew.
    destruct (D (lucasU [P] [Q] (Zpos e))) as [a ->]. destruct (D (lucasU [P] [Q] (Zpos e + 1))) as [b ->].
    rewrite Pos2Z.inj_xI. replace (2 * Zpos e + 1 + 1) with (2 * Zpos e + 2) by ring. rewrite U_double1, U_double2 by lia.
    set (U := lucasU [P] [Q] (Zpos e)). set (U1 := lucasU [P] [Q] (Zpos e + 1)). split; apply mod_eqm; try lia.
    + exists (2 * U1 * b + b * b * [m] - [Q] * (2 * U * a + a * a * [m])). ring.
    + exists ([P] * (2 * U1 * b + b * b * [m]) - 2 * [Q] * (U1 * a + U * b + a * b * [m])). ring.
  - destruct (bluc m P Q e) as [u w]. cbn [fst snd] in *. destruct IH as [Eu Ew]. rewrite !BigZ.spec_modulo, !BigZ.spec_sub, !BigZ.spec_mul, ?BigZ.spec_sub, ?BigZ.spec_mul, ?BigZ.spec_add, Eu, Ew.
    destruct (D (lucasU [P] [Q] (Zpos e))) as [a ->]. destruct (D (lucasU [P] [Q] (Zpos e + 1))) as [b ->].
    rewrite Pos2Z.inj_xO. rewrite U_double1, U_double, V_U by lia.
    set (U := lucasU [P] [Q] (Zpos e)). set (U1 := lucasU [P] [Q] (Zpos e + 1)). split; apply mod_eqm; try lia.
    + exists (U * (2 * b - [P] * a) + a * (2 * U1 - [P] * U) + a * (2 * b - [P] * a) * [m]). ring.
    + exists (2 * U1 * b + b * b * [m] - [Q] * (2 * U * a + a * a * [m])). ring.
  - cbn [fst snd]. rewrite !BigZ.spec_modulo, BigZ.spec_1. change (1 + 1) with (0 + 2). rewrite U_rec by lia. change (0 + 1) with 1. rewrite U_0, U_1. split; [reflexivity | f_equal; ring].
Qed.
Definition zbluc (m P Q e : Z) : Z := [fst (bluc (BigZ.of_Z m) (BigZ.of_Z P) (BigZ.of_Z Q) (Z.to_pos e))].
Lemma zbluc_spec : forall m P Q e, 1 <= m -> 1 <= e -> zbluc m P Q e = lucasU P Q e mod m.
Proof.
  intros m P Q e Hm He. unfold zbluc. destruct (bluc_spec (BigZ.of_Z m) (BigZ.of_Z P) (BigZ.of_Z Q) (Z.to_pos e)) as [E _]; [rewrite BigZ.spec_of_Z; lia|].
  rewrite E, !BigZ.spec_of_Z, Z2Pos.id by lia. reflexivity.
Qed.
