(** * C28, C29, C47: factorize64, factorize128, precomputed-inverse division. *)
From Coq Require Import ZArith Znumtheory List Lia Bool Sorted.
From Verif Require Import Base Tables Spec Ext NT PBase PTables MInteger PInteger Ops POps MPrimality MTraits PSprp MFactor MSieve MIsPrime PIsPrime PIsPrime2 MFactorize PFactor PFactor2 PFactorize PFactorize2 PFactorize3.
Import ListNotations.
Local Open Scope Z_scope.

(** C47: for every prime of the table except 2, multiplying by the stored inverse and comparing with the
    stored limit tells exactly whether the prime divides, and yields the quotient. *)
Theorem C47_preinv64 : forall i p inv lim n, nth_error (SMALL_PRIMES BigTable) i = Some p -> nth_error SMALL_PRIMES_INV i = Some (inv, lim) -> p <> 2 ->
  0 <= n < 2 ^ 64 -> preinv_div64 n (inv, lim) = if n mod p =? 0 then Some (n / p) else None.
Proof.
  intros i p inv lim n H1 H2 H3 Hn. apply preinv64_exact; [|exact Hn].
  assert (G : forall (l : list Z) (l' : list (Z * Z)) k, nth_error l k = Some p -> nth_error l' k = Some (inv, lim) -> In (p, (inv, lim)) (combine l l')).
  { induction l as [|x l IH]; intros [|y l'] [|k] A B; try discriminate; cbn [nth_error] in *; cbn [combine In].
    - injection A as ->. injection B as ->. left. reflexivity.
    - right. apply (IH l' k); assumption. }
  pose proof (G _ _ i H1 H2) as Hin. pose proof inv_table as T. rewrite forallb_forall in T.
  assert (Hin' : In (p, (inv, lim)) (tl (combine (SMALL_PRIMES BigTable) SMALL_PRIMES_INV))).
  { destruct (small_primes_head BigTable) as [l El]. rewrite El in Hin |- *. destruct SMALL_PRIMES_INV as [|y l']; [destruct Hin|]. cbn [combine tl] in *. destruct Hin as [E|Hin]; [injection E as E _; congruence | exact Hin]. }
  exact (T _ Hin').
Qed.
Theorem C47_preinv128 : forall i p inv lim n, nth_error (SMALL_PRIMES BigTable) i = Some p -> nth_error SMALL_PRIMES_INV i = Some (inv, lim) -> p <> 2 ->
  0 <= n < 2 ^ 128 -> preinv_div128 n p (inv, lim) = if n mod p =? 0 then Some (n / p) else None.
Proof.
  intros i p inv lim n H1 H2 H3 Hn. apply preinv128_exact; [|exact Hn].
  assert (G : forall (l : list Z) (l' : list (Z * Z)) k, nth_error l k = Some p -> nth_error l' k = Some (inv, lim) -> In (p, (inv, lim)) (combine l l')).
  { induction l as [|x l IH]; intros [|y l'] [|k] A B; try discriminate; cbn [nth_error] in *; cbn [combine In].
    - injection A as ->. injection B as ->. left. reflexivity.
    - right. apply (IH l' k); assumption. }
  pose proof (G _ _ i H1 H2) as Hin. pose proof inv_table as T. rewrite forallb_forall in T.
  assert (Hin' : In (p, (inv, lim)) (tl (combine (SMALL_PRIMES BigTable) SMALL_PRIMES_INV))).
  { destruct (small_primes_head BigTable) as [l El]. rewrite El in Hin |- *. destruct SMALL_PRIMES_INV as [|y l']; [destruct Hin|]. cbn [combine tl] in *. destruct Hin as [E|Hin]; [injection E as E _; congruence | exact Hin]. }
  exact (T _ Hin').
Qed.
Theorem C47_table_length : length (SMALL_PRIMES BigTable) = 1024%nat /\ length SMALL_PRIMES_INV = 1024%nat.
Proof. split; vm_compute; reflexivity. Qed.
Example C47_case : nth_error (SMALL_PRIMES BigTable) 1 = Some 3 /\ nth_error SMALL_PRIMES_INV 1 = Some (12297829382473034411, 6148914691236517205)
  /\ preinv_div64 (3 * 1234567890123) (12297829382473034411, 6148914691236517205) = Some 1234567890123
  /\ preinv_div64 (3 * 1234567890123 + 1) (12297829382473034411, 6148914691236517205) = None
  /\ preinv_div128 (3 * 2 ^ 126) 3 (12297829382473034411, 6148914691236517205) = Some (2 ^ 126)
  /\ preinv_div128 (3 * 2 ^ 126 - 1) 3 (12297829382473034411, 6148914691236517205) = None.
Proof. vmc. Qed.

(** C28: whatever the random draws, a result of factorize64 is a map with positive exponents whose product
    is the target, and is_prime64 accepts every key. *)
Theorem C28_factorize64 : forall f pf fuel n dr m dr', 1 <= n < 2 ^ 64 -> 129 < fuel -> factorize64 f pf fuel n dr = Ret (m, dr') ->
  wf_map m /\ prod_powers m = n /\ (forall k, In k (map fst m) -> is_prime64 f pf k = Ret true) /\
  (forall k, In k (map fst m) -> k <> n -> k < SMALL_PRIMES_NEXT f * SMALL_PRIMES_NEXT f -> prime k).
Proof.
  intros f pf fuel n dr m dr' Hn Hf E. pose proof (factorize64_spec f pf fuel Hf n dr Hn) as R. rewrite E in R. cbn [run fst] in R. destruct R as [A [B C]].
  split; [exact A|]. split; [exact B|]. split; [|intros k Hk; apply (C k Hk)]. intros k Hk. destruct (C k Hk) as [C1 _]. rewrite is_prime64_law, C1; [reflexivity|].
  assert (H2 : forall x, In x (map fst m) -> 2 <= x).
  { intros x Hx. destruct (C x Hx) as [D _]. unfold z_is_prime64 in D. destruct (Z.ltb_spec x 2); [discriminate | lia]. }
  assert (G : forall l, (forall x, In x (map fst l) -> 2 <= x) -> Forall (fun pe => 1 <= snd pe) l -> In k (map fst l) -> 1 <= prod_powers l /\ k <= prod_powers l).
  { assert (G0 : forall l, (forall x, In x (map fst l) -> 2 <= x) -> Forall (fun pe => 1 <= snd pe) l -> 1 <= prod_powers l).
    { intros l Hx He. apply prod_powers_pos. intros p e Hin. rewrite Forall_forall in He. specialize (He _ Hin). cbn [snd] in He. specialize (Hx p (in_map fst _ _ Hin)). lia. }
    induction l as [|[p e] l IH]; intros Hx He Hin; [destruct Hin|]. split; [apply G0; assumption|]. cbn [prod_powers]. inversion He as [|q r He1 He2]; subst. cbn [snd] in He1.
    assert (P0 : 1 <= prod_powers l) by (apply G0; [intros x Hi; apply Hx; right; exact Hi | exact He2]). assert (Hp : 2 <= p) by (apply Hx; left; reflexivity).
    assert (Hpe : p <= p ^ e) by (replace e with (1 + (e - 1)) by lia; rewrite Z.pow_add_r, Z.pow_1_r by lia; pose proof (Z.pow_pos_nonneg p (e - 1) ltac:(lia) ltac:(lia)); nia).
    destruct Hin as [Hin|Hin]; [cbn [fst] in Hin; subst; nia|]. destruct (IH ltac:(intros x Hi; apply Hx; right; exact Hi) He2 Hin) as [_ IH2]. specialize (Hx k (or_intror Hin)). nia. }
  destruct (G m H2 (proj2 A) Hk). lia.
Qed.
(** When the accepted keys are primes the map is the only prime factorization. *)
Theorem C28_unique : forall n m m', wf_map m -> prod_powers m = n -> (forall k, In k (map fst m) -> prime k) -> prime_factorization n m' -> m' = m.
Proof.
  intros n m m' W P K H. apply (prime_factorization_unique n m' m H). split; [exact W|]. split; [|exact P]. apply Forall_forall. intros pe Hpe. apply K, in_map, Hpe.
Qed.
(** Release builds never panic. *)
Theorem C28_release_never_panics : forall f fuel n dr, 1 <= n < 2 ^ 64 -> 129 < fuel -> factorize64 f Release fuel n dr <> Panic.
Proof.
  intros f fuel n dr Hn Hf E. pose proof (factorize64_spec f Release fuel Hf n dr Hn) as R. rewrite E in R. cbn [run] in R. discriminate.
Qed.
(** It returns the prime factorization, drawing nothing, whenever the table primes leave 1 or a prime,
    provided is_prime64 does not mistake the target itself for a prime. *)
Theorem C28_returns : forall f pf fuel n s q dr, 1 <= n < 2 ^ 64 -> 129 < fuel -> n = s * q -> 1 <= s -> (forall p, prime p -> (p | s) -> p < SMALL_PRIMES_NEXT f) -> q = 1 \/ prime q ->
  (is_prime64 f pf n = Ret true -> prime n) -> exists m, factorize64 f pf fuel n dr = Ret (m, dr) /\ prime_factorization n m.
Proof. intros. eapply factorize64_total; eassumption. Qed.
(** ... without that proviso for even targets. *)
Theorem C28_returns_even : forall f pf fuel n s q dr, 1 <= n < 2 ^ 64 -> 129 < fuel -> Z.even n = true -> n = s * q -> 1 <= s -> (forall p, prime p -> (p | s) -> p < SMALL_PRIMES_NEXT f) -> q = 1 \/ prime q ->
  exists m, factorize64 f pf fuel n dr = Ret (m, dr) /\ prime_factorization n m.
Proof.
  intros f pf fuel n s q dr Hn Hf Ev E Hs Hp Hq. apply (C28_returns f pf fuel n s q dr); try assumption. rewrite is_prime64_law by lia. unfold z_is_prime64. rewrite Ev.
  destruct (n <? 2); intros C; injection C as C; [discriminate|]. apply Z.eqb_eq in C. subst. rewrite C. apply prime_2.
Qed.
(** Debug builds can overflow: a random start on which Pollard's rho fails at once leads to the one line
    method, which squares 2^32. Another random start succeeds. *)
Theorem C28_debug_overflow_refuted : forall f, factorize64 f Debug 200 (10007 * 1843384038543953) [0; 0] = Panic /\
  factorize64 f Debug 200 (10007 * 1843384038543953) [5; 1] = Ret ([(10007, 1); (1843384038543953, 1)], []).
Proof. intros [|]; vmc. Qed.
(** factorize64(0): panic in debug; a wrong answer in release (the map 0^1 2^64). *)
Theorem C28_zero_refuted : forall f, factorize64 f Debug 200 0 [] = Panic /\ factorize64 f Release 200 0 [] = Ret ([(0, 1); (2, 64)], []).
Proof. intros [|]; vmc. Qed.
Example C28_case : factorize64 BigTable Debug 200 (2 ^ 3 * 3 ^ 2 * 1000003) [] = Ret ([(2, 3); (3, 2); (1000003, 1)], [])
  /\ factorize64 SmallTable Debug 200 (1009 ^ 6) [] = Ret ([(1009, 6)], [])
  /\ factorize64 SmallTable Debug 2000 (1000003 * 999983) [5; 1; 7; 3; 11; 13] = Ret ([(999983, 1); (1000003, 1)], [7; 3; 11; 13]).
Proof. vmc. Qed.

(** C29: the same for factorize128; every key is accepted by is_prime with the BPSW settings. *)
Theorem C29_factorize128 : forall f pf lf fuel n dr m dr', 1 <= n < 2 ^ 128 -> 129 < fuel -> Z.of_nat lf <= 2 ^ 61 -> factorize128 f pf lf fuel n dr = Ret (m, dr') ->
  wf_map m /\ prod_powers m = n /\
  (forall k, In k (map fst m) -> forall d, prime_probably f pf u128 lf k (Some pc_bpsw) d = Ret (true, d)) /\
  (forall k, In k (map fst m) -> k <> n -> k < SMALL_PRIMES_NEXT f * SMALL_PRIMES_NEXT f -> prime k).
Proof.
  intros f pf lf fuel n dr m dr' Hn Hf Hlf E. pose proof (factorize128_spec f pf lf fuel Hlf Hf n dr Hn) as R. rewrite E in R. cbn [run fst] in R. destruct R as [A [B C]].
  split; [exact A|]. split; [exact B|]. split; intros k Hk; apply (C k Hk).
Qed.
Theorem C29_release_never_panics : forall f lf fuel n dr, 1 <= n < 2 ^ 128 -> 129 < fuel -> Z.of_nat lf <= 2 ^ 61 -> factorize128 f Release lf fuel n dr <> Panic.
Proof.
  intros f lf fuel n dr Hn Hf Hlf E. pose proof (factorize128_spec f Release lf fuel Hlf Hf n dr Hn) as R. rewrite E in R. cbn [run] in R. discriminate.
Qed.
Theorem C29_small : forall f pf lf fuel n dr, n < 2 ^ 64 -> factorize128 f pf lf fuel n dr = factorize64 f pf fuel n dr.
Proof. intros f pf lf fuel n dr H. unfold factorize128. apply Z.ltb_lt in H. rewrite H. reflexivity. Qed.
Example C29_case : factorize128 BigTable Debug 50 200 (2 ^ 70 * 3 ^ 5 * 8161) [] = Ret ([(2, 70); (3, 5); (8161, 1)], [])
  /\ factorize128 SmallTable Debug 50 200 (2 ^ 3 * (2 ^ 61 - 1) ^ 2) [] = Ret ([(2, 3); (2 ^ 61 - 1, 2)], []).
Proof. vmc. Qed.

(** The Montgomery wrapped is_prime called by factorize128 and the prime generators gives the same answer
    as is_prime on the plain integer. *)
Theorem C23_is_prime_agrees : forall f pf t n A (PR : probs A) lf c dr, valid_ity t -> in_range t n -> Z.odd n = true -> 1 <= n -> eslprp_test c = false -> Z.of_nat lf <= 2 ^ 61 ->
  nt_is_prime f pf (mops pf t) PR lf (ML n) (Some c) dr = nt_is_prime f pf (uops f pf t) PR lf n (Some c) dr.
Proof.
  intros. unfold nt_is_prime. apply mint_is_prime_agrees; try assumption. intros w Hw. apply new_buf_range in Hw. lia.
Qed.
Theorem C23_is_prime_agrees_default : forall f pf t n A (PR : probs A) lf dr, valid_ity t -> in_range t n -> Z.odd n = true -> 1 <= n -> Z.of_nat lf <= 2 ^ 61 ->
  nt_is_prime f pf (mops pf t) PR lf (ML n) None dr = nt_is_prime f pf (uops f pf t) PR lf n None dr.
Proof.
  intros. unfold nt_is_prime. apply mint_is_prime_agrees; try assumption; [|reflexivity]. intros w Hw. apply new_buf_range in Hw. lia.
Qed.
Example C23_is_prime_case : nt_is_prime BigTable Debug (mops Debug u128) no_probs 50 (ML (2 ^ 89 - 1)) None [5; 7; 11] = Ret (Probable tt, [])
  /\ nt_is_prime BigTable Debug (mops Debug u128) no_probs 50 (ML (2 ^ 89 + 1)) (Some pc_bpsw) [] = Ret (No, []).
Proof. vmc. Qed.

Print Assumptions C47_preinv64. Print Assumptions C47_preinv128. Print Assumptions C47_table_length. Print Assumptions C28_factorize64. Print Assumptions C28_unique. Print Assumptions C28_release_never_panics.
Print Assumptions C28_returns. Print Assumptions C28_returns_even. Print Assumptions C28_debug_overflow_refuted. Print Assumptions C28_zero_refuted.
Print Assumptions C29_factorize128. Print Assumptions C29_release_never_panics. Print Assumptions C29_small. Print Assumptions C23_is_prime_agrees. Print Assumptions C23_is_prime_agrees_default.
