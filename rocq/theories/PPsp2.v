(** * The exhaustive search for strong pseudoprimes to the bases 2, 7 and 61 below 2^32 (see PPsp.v). *)
From Coq Require Import ZArith Znumtheory List Lia Bool Sorted Zpow_facts Uint63.
From Verif Require Import Base Spec Ext NT PBase Tables PTables NTPock NTRabin PExact PPsp.
Import ListNotations.
Local Open Scope Z_scope.
Local Notation V := Uint63.to_Z.

(** ** The primes from 11 to 2^16 but 61, each with the order of the bases *)
Fixpoint red (fs : list int) (p L : int) : int := match fs with [] => L | f :: fs' => red fs' p (if alls (L / f)%uint63 p then (L / f)%uint63 else L) end.
Definition Lof (p : int) : int := red (fl 300 divisors (p - 1)%uint63) p (p - 1)%uint63.
Fixpoint mk (k : nat) (x : int) (acc : list (int * int)) : list (int * int) :=
  match k with O => acc | S k' => mk k' (x - 2)%uint63 (if (lpf divisors x =? 0)%uint63 && negb (x =? 61)%uint63 then (x, Lof x) :: acc else acc) end.
Definition tab : list (int * int) := Eval vm_compute in mk (Z.to_nat 32763) 65535%uint63 [].
(** every odd number from [lo] on is the next entry of the table, 61 or has a divisor *)
Fixpoint walk (k : nat) (x : int) (s : list (int * int)) : bool :=
  match k with
  | O => true
  | S k' => match s with
            | (p, _) :: s' => if (x =? p)%uint63 then walk k' (x + 2)%uint63 s' else if (x =? 61)%uint63 || negb (lpf divisors x =? 0)%uint63 then walk k' (x + 2)%uint63 s else false
            | [] => if (x =? 61)%uint63 || negb (lpf divisors x =? 0)%uint63 then walk k' (x + 2)%uint63 s else false
            end
  end.
Lemma tab_walk : walk (Z.to_nat 32763) 11 tab = true.
Proof. vm_compute. reflexivity. Qed.
Lemma walk_in : forall k x s, walk k x s = true -> V x + 2 * Z.of_nat k < 2 ^ 20 -> 2 <= V x -> forall q i, prime q -> q <> 61 -> 0 <= i < Z.of_nat k -> q = V x + 2 * i -> exists L, In (of_Z q, L) s.
Proof.
  induction k as [|k IH]; intros x s H Hx Hx2 q i Pq N61 Hi Eq; [lia|]. cbn [walk] in H. pose proof (to_Z_bounded x) as B.
  assert (E2 : V (x + 2) = V x + 2) by (rewrite add_spec; change (V 2) with 2; apply Z.mod_small; change wB with (2 ^ 63); lia).
  assert (Here : i = 0 -> (x =? 61)%uint63 || negb (lpf divisors x =? 0)%uint63 = true -> False).
  { intros -> K. rewrite Z.mul_0_r, Z.add_0_r in Eq. apply orb_true_iff in K. destruct K as [K|K]; [apply ieqb in K; change (V 61) with 61 in K; lia|]. apply negb_true_iff in K. rewrite lpf_primeb in K by lia. rewrite <- Eq in K. apply primeb_spec in Pq. congruence. }
  assert (Next : forall s', walk k (x + 2) s' = true -> i <> 0 -> exists L, In (of_Z q, L) s').
  { intros s' K Ni. apply (IH (x + 2)%uint63 s' K ltac:(lia) ltac:(lia) q (i - 1) Pq N61 ltac:(lia)). lia. }
  destruct s as [|[p L] s'].
  - destruct ((x =? 61)%uint63 || negb (lpf divisors x =? 0)%uint63) eqn:K; [|discriminate]. destruct (Z.eq_dec i 0) as [I|I]; [exfalso; exact (Here I eq_refl) | exact (Next _ H I)].
  - destruct (x =? p)%uint63 eqn:E.
    + destruct (Z.eq_dec i 0) as [-> |I]; [|destruct (Next _ H I) as [L' HL]; exists L'; right; exact HL]. exists L. left. apply ieqb in E. f_equal. apply to_Z_inj. rewrite iof by lia. lia.
    + destruct ((x =? 61)%uint63 || negb (lpf divisors x =? 0)%uint63) eqn:K; [|discriminate]. destruct (Z.eq_dec i 0) as [I|I]; [exfalso; exact (Here I eq_refl) | exact (Next _ H I)].
Qed.
Lemma tab_primes : forall q, prime q -> 11 <= q < 2 ^ 16 -> q <> 61 -> exists L, In (of_Z q, L) tab.
Proof.
  intros q Pq Hq N. assert (Oq : q mod 2 = 1).
  { pose proof (Z.mod_pos_bound q 2 ltac:(lia)). destruct (Z.eq_dec (q mod 2) 0) as [C|]; [|lia]. apply Z.mod_divide in C; [|lia]. apply prime_divides_prime in C; [lia | exact prime_2 | exact Pq]. }
  pose proof (Z.div_mod q 2 ltac:(lia)). apply (walk_in _ 11%uint63 tab tab_walk ltac:(change (V 11) with 11; lia) ltac:(change (V 11) with 11; lia) q ((q - 11) / 2) Pq N).
  - split; [apply Z.div_pos; lia|]. rewrite Z2Nat.id by lia. apply Z.div_lt_upper_bound; lia.
  - change (V 11) with 11. assert (E : q - 11 = (q / 2 - 5) * 2) by lia. rewrite E, Z.div_mul by lia. lia.
Qed.
Fixpoint increasing (s : list (int * int)) : bool := match s with (p, _) :: ((q, _) :: _) as s' => (p <? q)%uint63 && increasing s' | _ => true end.
Lemma tab_increasing : increasing tab = true.
Proof. vm_compute. reflexivity. Qed.
Lemma increasing_sorted : forall s, increasing s = true -> StronglySorted (fun a b => V (fst a) < V (fst b)) s.
Proof.
  intros s H. apply Sorted_StronglySorted; [intros a b c; lia|]. induction s as [|[p L] s IH]; [constructor|]. cbn [increasing] in H. destruct s as [|[q L'] s']; [repeat constructor|].
  apply andb_true_iff in H. destruct H as [H1 H2]. constructor; [apply IH, H2 | constructor; apply iltb; exact H1].
Qed.
(** an entry: the number is prime, its order is right, and the bases do not all stay fixed modulo its square *)
Definition entry_ok (e : int * int) : bool :=
  let '(p, L) := e in (10 <? p)%uint63 && (p <? 65536)%uint63 && (lpf divisors p =? 0)%uint63 && order_cert p L &&
  (negb (powm 16 2 (p - 1) (p * p) =? 1)%uint63 || negb (powm 16 7 (p - 1) (p * p) =? 1)%uint63).
Lemma tab_ok : forallb entry_ok tab = true.
Proof. vm_compute. reflexivity. Qed.
Definition good (p L : int) : Prop := prime (V p) /\ 11 <= V p < 2 ^ 16 /\ order_of (V p) (V L) /\ ~ (2 ^ (V p - 1) mod (V p * V p) = 1 /\ 7 ^ (V p - 1) mod (V p * V p) = 1).
Lemma entry_good : forall p L, In (p, L) tab -> good p L.
Proof.
  intros p L H. pose proof (proj1 (forallb_forall _ _) tab_ok _ H) as E. unfold entry_ok in E. rewrite !andb_true_iff in E. destruct E as [[[[E1 E2] E3] E4] E5].
  apply iltb in E1. apply iltb in E2. change (V 10) with 10 in E1. change (V 65536) with 65536 in E2. assert (Pp : prime (V p)) by (apply lpf_prime; [lia | apply to_Z_inj; apply ieqb in E3; exact E3]).
  split; [exact Pp|]. split; [lia|]. split; [apply order_cert_spec; [exact Pp | lia | exact E4]|]. intros [C2 C7].
  assert (Ep : V (p - 1) = V p - 1) by (rewrite sub_spec; change (V 1) with 1; apply Z.mod_small; change wB with (2 ^ 63); lia).
  assert (Epp : V (p * p) = V p * V p) by (apply imul; lia). assert (11 * 11 <= V p * V p) by (apply Z.mul_le_mono_nonneg; lia).
  rewrite orb_true_iff, !negb_true_iff, !ieqbf in E5. change (V 1) with 1 in E5.
  rewrite !powm_spec, Ep, Epp in E5 by (rewrite ?Ep, ?Epp; try change (V 2) with 2; try change (V 7) with 7; change (2 ^ Z.of_nat 16) with 65536; lia). change (V 2) with 2 in E5. change (V 7) with 7 in E5. tauto.
Qed.
