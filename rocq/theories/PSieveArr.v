(** * All primes up to 12000000, by a sieve in a primitive array of Coq.

    The numbers prime to 6 are 1, 5, 7, 11, 13, ...; number i of them is [numz i]. Every cell marked is
    a proper multiple of something, so what is left contains all primes; that there are as many left
    as there are primes follows from a count by Legendre's formula (PPiVals.v), so what is left is
    exactly the primes. *)
From Coq Require Import ZArith Znumtheory List Lia Bool Uint63 PArray.
From Verif Require Import Base Spec NT PBase NTPhi PExact PPiVals.
Import ListNotations.
Local Open Scope Z_scope.
Local Notation V := Uint63.to_Z.

Definition top : Z := 12000000.
Definition cells : Z := 4000000.
Definition numz (i : Z) : Z := 3 * i + 1 + i mod 2.
Definition num (i : int) : int := (3 * i + 1 + i land 1)%uint63.
Lemma num_spec : forall i, V i < cells -> V (num i) = numz (V i).
Proof.
  intros i Hi. unfold num, numz, cells in *. pose proof (to_Z_bounded i). assert (B : 0 <= V i mod 2 < 2) by (apply Z.mod_pos_bound; lia).
  assert (M : V (3 * i)%uint63 = 3 * V i) by (rewrite imul; [reflexivity | change (V 3) with 3; lia | lia]).
  assert (A : V (3 * i + 1)%uint63 = 3 * V i + 1) by (rewrite add_spec, M; change (V 1) with 1; apply Z.mod_small; change wB with (2 ^ 63); lia).
  rewrite add_spec, A, iland1. apply Z.mod_small. change wB with (2 ^ 63). lia.
Qed.
Lemma numz_step : forall i p, numz (i + 2 * p) = numz i + 6 * p.
Proof. intros i p. unfold numz. replace (i + 2 * p) with (i + p * 2) by lia. rewrite Z_mod_plus_full. lia. Qed.
Lemma numz_between : forall i z, 2 <= i -> numz (i - 1) < z < numz i -> ~ prime z.
Proof.
  intros i z Hi Hz Hp. unfold numz in Hz. pose proof (Z.div_mod i 2 ltac:(lia)) as D. pose proof (Z.mod_pos_bound i 2 ltac:(lia)) as B.
  pose proof (Z.div_mod (i - 1) 2 ltac:(lia)) as D1. pose proof (Z.mod_pos_bound (i - 1) 2 ltac:(lia)) as B1.
  assert (Hz2 : 5 <= z) by lia.
  assert (K : (2 | z) \/ (3 | z)).
  { set (j := i / 2) in *. assert (C : i mod 2 = 0 \/ i mod 2 = 1) by lia. destruct C as [C|C]; rewrite C in *.
    - left. exists (3 * j). lia.
    - assert (z = 6 * j + 2 \/ z = 6 * j + 3 \/ z = 6 * j + 4) as [E|[E|E]] by lia; [left; exists (3 * j + 1); lia | right; exists (2 * j + 1); lia | left; exists (3 * j + 2); lia]. }
  destruct K as [K|K]; apply (prime_divisors z Hp) in K; lia.
Qed.

(** ** Marking *)
Fixpoint mark (fuel : nat) (t : array int) (i s n : int) : array int :=
  match fuel with
  | O => t
  | S f => if (i <? n)%uint63 then let t' := (PArray.set t i 1%uint63) in if (PArray.length t' =? 0)%uint63 then t' else mark f t' (i + s)%uint63 s n else t
  end.
Definition mark_from (fuel : nat) (t : array int) (i p n : int) : array int :=
  if ((i <? n) && (num i mod p =? 0) && (p <? num i) && (1 <? p) && (p <? 4096))%uint63 then mark fuel t i (2 * p)%uint63 n else t.
(** the multiples of p that are prime to 6, from p^2 on *)
Definition strike (fuel : nat) (t : array int) (p n : int) : array int :=
  let t := mark_from fuel t (p * p / 3)%uint63 p n in mark_from fuel t (p * (p + (if (p mod 3 =? 1)%uint63 then 4 else 2)) / 3)%uint63 p n.
Fixpoint sieve (k : nat) (fuel : nat) (i n : int) (t : array int) : array int :=
  match k with
  | O => t
  | S k' => if (PArray.get t i =? 0)%uint63 then sieve k' fuel (i + 1)%uint63 n (strike fuel t (num i) n) else sieve k' fuel (i + 1)%uint63 n t
  end.
Definition sound (t : array int) : Prop := forall i, V i < cells -> PArray.get t i <> 0%uint63 -> ~ prime (numz (V i)).
Lemma get_set : forall (t : array int) i j x, PArray.get (PArray.set t i x) j <> 0%uint63 -> j = i \/ PArray.get t j <> 0%uint63.
Proof.
  intros t i j x H. destruct (Uint63.eqs i j) as [E|E]; [left; congruence|]. rewrite get_set_other in H by exact E. right. exact H.
Qed.
Lemma mark_sound : forall fuel t i p n, V n = cells -> sound t -> (V p | numz (V i)) -> V p < numz (V i) -> 1 < V p < 4096 -> sound (mark fuel t i (2 * p)%uint63 n).
Proof.
  induction fuel as [|f IH]; intros t i p n Hn Ht Hd Hl Hp; cbn [mark]; [exact Ht|].
  destruct (i <? n)%uint63 eqn:E; [|exact Ht]. apply iltb in E. rewrite Hn in E. cbv zeta.
  assert (S' : sound (PArray.set t i 1%uint63)).
  { intros j Hj H. apply get_set in H. destruct H as [->|H]; [|apply Ht; assumption]. intros Q. destruct (prime_divisors _ Q _ Hd) as [X|[X|[X|X]]]; lia. }
  destruct (PArray.length (PArray.set t i 1%uint63) =? 0)%uint63; [exact S'|].
  pose proof (to_Z_bounded i). unfold cells in *.
  assert (M : V (2 * p)%uint63 = 2 * V p) by (rewrite imul; [reflexivity | change (V 2) with 2; lia | lia]).
  assert (A : V (i + 2 * p)%uint63 = V i + 2 * V p) by (rewrite add_spec, M; apply Z.mod_small; change wB with (2 ^ 63); lia).
  apply IH; auto; rewrite A, numz_step; [apply Z.divide_add_r; [exact Hd | exists 6; lia] | lia].
Qed.
Lemma mark_from_sound : forall fuel t i p n, V n = cells -> sound t -> sound (mark_from fuel t i p n).
Proof.
  intros fuel t i p n Hn Ht. unfold mark_from. destruct ((i <? n) && (num i mod p =? 0) && (p <? num i) && (1 <? p) && (p <? 4096))%uint63 eqn:E; [|exact Ht].
  apply andb_true_iff in E. destruct E as [E E5]. apply andb_true_iff in E. destruct E as [E E4]. apply andb_true_iff in E. destruct E as [E E3]. apply andb_true_iff in E. destruct E as [E1 E2].
  apply iltb in E1, E3, E4, E5. apply ieqb in E2. change (V 1) with 1 in E4. change (V 4096) with 4096 in E5. change (V 0) with 0 in E2. rewrite imod in E2. rewrite Hn in E1. rewrite num_spec in E2, E3 by exact E1.
  apply mark_sound; auto. apply Z.mod_divide; [lia | exact E2].
Qed.
Lemma sieve_sound : forall k fuel i n t, V n = cells -> sound t -> sound (sieve k fuel i n t).
Proof.
  induction k as [|k IH]; intros fuel i n t Hn Ht; cbn [sieve]; [exact Ht|].
  destruct (PArray.get t i =? 0)%uint63; apply IH; auto. unfold strike. apply mark_from_sound; auto. apply mark_from_sound; auto.
Qed.

(** ** The numbers left *)
Fixpoint scan (k : nat) (t : array int) (i : int) (acc : list int) : list int :=
  match k with
  | O => acc
  | S k' => if (PArray.get t i =? 0)%uint63 then scan k' t (i - 1)%uint63 (num i :: acc) else scan k' t (i - 1)%uint63 acc
  end.
(** rows of [w] cells *)
Fixpoint rows (m w : nat) (wi : int) (t : array int) (i : int) (acc : list int) : list int :=
  match m with O => acc | S m' => rows m' w wi t (i - wi)%uint63 (scan w t i acc) end.
(** all primes in (x, top] are in the increasing list l *)
Fixpoint holds (x : Z) (l : list int) : Prop :=
  match l with
  | [] => forall q, prime q -> x < q <= top -> False
  | q :: l' => x < V q <= top /\ (forall r, prime r -> x < r < V q -> False) /\ holds (V q) l'
  end.
Lemma holds_ext : forall x y l, y <= x -> (forall r, prime r -> y < r <= x -> False) -> holds x l -> holds y l.
Proof.
  intros x y l Hxy Hn H. destruct l as [|q l]; cbn [holds] in *.
  - intros r Hr Hb. destruct (Z.le_gt_cases r x); [apply (Hn r Hr); lia | apply (H r Hr); lia].
  - destruct H as [A [B C]]. split; [lia|]. split; [|exact C]. intros r Hr Hb. destruct (Z.le_gt_cases r x); [apply (Hn r Hr); lia | apply (B r Hr); lia].
Qed.
Lemma numz_inc : forall i, numz (i - 1) < numz i.
Proof.
  intros i. unfold numz. pose proof (Z.mod_pos_bound i 2 ltac:(lia)). pose proof (Z.mod_pos_bound (i - 1) 2 ltac:(lia)). lia.
Qed.
Lemma numz_top : forall i, i < cells -> numz i <= top.
Proof. intros i H. unfold numz, cells, top in *. pose proof (Z.mod_pos_bound i 2 ltac:(lia)). pose proof (Z.div_mod i 2 ltac:(lia)). lia. Qed.
Lemma isub : forall a b, V b <= V a -> V (a - b)%uint63 = V a - V b.
Proof. intros a b H. pose proof (to_Z_bounded a). pose proof (to_Z_bounded b). rewrite sub_spec. apply Z.mod_small. lia. Qed.
Lemma scan_holds : forall k t i acc, sound t -> V i < cells -> Z.of_nat k < V i -> holds (numz (V i)) acc -> holds (numz (V i - Z.of_nat k)) (scan k t i acc).
Proof.
  induction k as [|k IH]; intros t i acc Ht Hi Hk H; cbn [scan].
  - rewrite Z.sub_0_r. exact H.
  - rewrite Nat2Z.inj_succ in *. assert (E : V (i - 1)%uint63 = V i - 1) by (apply isub; change (V 1) with 1; lia).
    replace (V i - Z.succ (Z.of_nat k)) with (V (i - 1)%uint63 - Z.of_nat k) by lia. pose proof (numz_inc (V i)) as I.
    destruct (PArray.get t i =? 0)%uint63 eqn:T; apply IH; auto; try lia; rewrite E.
    + cbn [holds]. rewrite num_spec by exact Hi. split; [split; [exact I | apply numz_top; exact Hi]|]. split; [|exact H].
      intros r Hr Hb. apply (numz_between (V i) r); auto. lia.
    + apply (holds_ext (numz (V i))); [lia | | exact H]. intros r Hr Hb. assert (N : r = numz (V i) \/ numz (V i - 1) < r < numz (V i)) by lia.
      destruct N as [->|N]; [|apply (numz_between (V i) r); auto; lia]. apply (Ht i); auto. intros Z. rewrite Z in T. discriminate T.
Qed.
Lemma rows_holds : forall m w wi t i acc, sound t -> V i < cells -> V wi = Z.of_nat w -> Z.of_nat m * Z.of_nat w < V i -> holds (numz (V i)) acc ->
  holds (numz (V i - Z.of_nat m * Z.of_nat w)) (rows m w wi t i acc).
Proof.
  induction m as [|m IH]; intros w wi t i acc Ht Hi Hw Hk H; cbn [rows].
  - rewrite Z.mul_0_l, Z.sub_0_r. exact H.
  - rewrite Nat2Z.inj_succ in *. assert (0 <= Z.of_nat m * Z.of_nat w) by (apply Z.mul_nonneg_nonneg; lia). assert (E : V (i - wi)%uint63 = V i - Z.of_nat w) by (rewrite isub; lia).
    replace (V i - Z.succ (Z.of_nat m) * Z.of_nat w) with (V (i - wi)%uint63 - Z.of_nat m * Z.of_nat w) by lia.
    apply IH; auto; try lia. rewrite E. apply scan_holds; auto. lia.
Qed.

(** exactly the primes in (x, n] *)
Fixpoint primes_after (n x : Z) (l : list int) : Prop :=
  match l with
  | [] => prime_count n = prime_count x
  | q :: l' => x < V q <= n /\ prime (V q) /\ prime_count (V q) = prime_count x + 1 /\ primes_after n (V q) l'
  end.
Lemma hold_step : forall x q, x < q -> (forall r, prime r -> x < r < q -> False) -> prime_count q <= prime_count x + 1 /\ (prime_count q = prime_count x + 1 -> prime q).
Proof.
  intros x q Hx Hn. assert (E : prime_count (q - 1) = prime_count x) by (apply pc_no_prime; [lia|]; intros r Hr Hb; apply (Hn r Hr); lia).
  destruct (Z.lt_ge_cases q 1) as [L|L].
  - pose proof (pc_lt2 q ltac:(lia)). pose proof (pc_nonneg x). lia.
  - pose proof (pc_step (q - 1) ltac:(lia)) as S. replace (q - 1 + 1) with q in S by lia. destruct (primeb q) eqn:P; [split; [lia | intros _; apply primeb_true; exact P] | split; lia].
Qed.
Lemma holds_count : forall l x, holds x l -> prime_count top - prime_count x <= Z.of_nat (List.length l).
Proof.
  induction l as [|q l IH]; intros x H; cbn [holds List.length] in *.
  - destruct (Z.le_gt_cases x top); [rewrite (pc_no_prime x top); [lia | lia | exact H] | pose proof (pc_mono top x ltac:(lia)); lia].
  - destruct H as [A [B C]]. specialize (IH _ C). destruct (hold_step x (V q) ltac:(lia) B). lia.
Qed.
Lemma holds_exact : forall l x, x <= top -> holds x l -> prime_count top - prime_count x = Z.of_nat (List.length l) -> primes_after top x l.
Proof.
  induction l as [|q l IH]; intros x Hx H E; cbn [holds primes_after List.length] in *.
  - lia.
  - destruct H as [A [B C]]. pose proof (holds_count l (V q) C) as K. destruct (hold_step x (V q) ltac:(lia) B) as [S P]. assert (S' : prime_count (V q) = prime_count x + 1) by lia.
    split; [exact A|]. split; [apply P; exact S'|]. split; [exact S'|]. apply IH; [lia | exact C | lia].
Qed.
Lemma holds_short : forall l x, holds x l -> Z.of_nat (List.length l) <= Z.max 0 (top - x).
Proof. induction l as [|q l IH]; intros x H; cbn [holds List.length] in *; [lia|]. destruct H as [A [_ C]]. specialize (IH _ C). lia. Qed.
Fixpoint len (l : list int) (c : int) : int := match l with [] => c | _ :: l' => len l' (c + 1)%uint63 end.
Lemma len_spec : forall l c, V c + Z.of_nat (List.length l) < 2 ^ 62 -> V (len l c) = V c + Z.of_nat (List.length l).
Proof.
  induction l as [|q l IH]; intros c H; cbn [len List.length] in *; [lia|]. assert (E : V (c + 1)%uint63 = V c + 1).
  { rewrite add_spec. change (V 1) with 1. pose proof (to_Z_bounded c). apply Z.mod_small. change wB with (2 ^ 63). lia. }
  rewrite IH; rewrite E; lia.
Qed.

(** the primes from 7 on *)
Definition prime_list : list int :=
  let fuel := Z.to_nat 400000 in
  let t := sieve 1155 fuel 1%uint63 4000000%uint63 (make 4000000%uint63 0%uint63) in
  scan 998 t 999%uint63 (rows 3999 1000 1000%uint63 t 3999999%uint63 []).
