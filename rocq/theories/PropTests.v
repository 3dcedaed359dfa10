(** * The assertions of the crate's own unit tests: C66 the fixed values, C67 the randomized assertions, C68 the
    pseudoprime lists. Each theorem names the test function it transcribes.
    Where a test draws random values, the assertion is stated for every value it could draw. *)
From Coq Require Import ZArith Znumtheory Zpow_facts List Lia Bool Sorted.
From Verif Require Import Base Tables Spec Ext NT PBase PTables MInteger PInteger Ops POps MPrimality MTraits PSprp PropSprp MFactor MSieve MIsPrime PIsPrime PIsPrime2 PropIsPrime MFactorize PFactor PFactorize PFactorize2 PFactorize3 PropFactorize PropFactorize2 NTPock PDoc PropDoc NTRecip PFast PTests PropMint MRand PropRand PropFactor PropLucas PropInteger PropSmall PCerts MSieve NTLegendre NTResidue.
Import ListNotations.
Local Open Scope Z_scope.

(** ** src/nt_funcs.rs:1036-1367 *)

(** is_prime64_test, 1043-1072: the listed numbers *)
Definition listed_primes : list Z := [677; 6469693333; 13756265695458089029; 13496181268022124907; 10953742525620032441; 17908251027575790097;
  480194653; 8718775377449; 3315293452192821991].
Definition listed_composites : list Z := [9773; 13357; 18769; 20074069; 8651776913431; 1152965996591997761; 600437059821397; 3866032210719337; 4100599722623587].
Definition same_bool (r : res bool) (b : bool) : bool := match r with Ret x => Bool.eqb x b | _ => false end.
Theorem C66_is_prime64_test : forall f pf,
  forallb (fun x => same_bool (is_prime64 f pf (Z.of_nat x)) (existsb (Z.eqb (Z.of_nat x)) (SMALL_PRIMES f))) (seq 2 98) = true /\
  forallb (fun x => same_bool (is_prime64 f pf x) true) listed_primes = true /\
  forallb (fun x => same_bool (is_prime64 f pf x) false) listed_composites = true.
Proof.
  intros f pf. assert (C : forallb (fun x => same_bool (is_prime64 f Debug (Z.of_nat x)) (existsb (Z.eqb (Z.of_nat x)) (SMALL_PRIMES f))) (seq 2 98) = true /\
    forallb (fun x => (x <? 2 ^ 64) && same_bool (is_prime64 f Debug x) true) listed_primes = true /\ forallb (fun x => (x <? 2 ^ 64) && same_bool (is_prime64 f Debug x) false) listed_composites = true) by (destruct f; vmc).
  destruct C as [C1 [C2 C3]]. rewrite forallb_forall in C1, C2, C3. split; [|split]; apply forallb_forall; intros x Hx.
  - specialize (C1 x Hx). apply in_seq in Hx. rewrite is_prime64_law in * by lia. exact C1.
  - specialize (C2 x Hx). apply andb_true_iff in C2. destruct C2 as [R C2]. apply Z.ltb_lt in R. rewrite is_prime64_law in * by exact R. exact C2.
  - specialize (C3 x Hx). apply andb_true_iff in C3. destruct C3 as [R C3]. apply Z.ltb_lt in R. rewrite is_prime64_law in * by exact R. exact C3.
Qed.

(** is_safe_prime_test, 1174-1192 *)
Definition safe_primes : list Z := [5; 7; 11; 23; 47; 59; 83; 107; 167; 179; 227; 263; 347; 359; 383; 467; 479; 503; 563; 587; 719; 839; 863; 887; 983; 1019; 1187; 1283; 1307; 1319; 1367; 1439; 1487; 1523; 1619; 1823; 1907].
Theorem C66_is_safe_prime_test : forall f pf, forallb (fun p => match is_safe_prime f pf (U 16) no_probs 0 p [] with Ret (r, _) => Bool.eqb (probably r) (existsb (Z.eqb p) safe_primes) | _ => false end)
  (filter (fun p => p <=? 1500) (SMALL_PRIMES f)) = true.
Proof.
  intros f pf. assert (C : forallb (fun p => (0 <=? p) && (p <=? 1500) && (match is_safe_prime BigTable Debug (U 16) no_probs 0 p [] with Ret (r, _) => Bool.eqb (probably r) (existsb (Z.eqb p) safe_primes) | _ => false end)) (filter (fun p => p <=? 1500) (SMALL_PRIMES f)) = true) by (destruct f; vmc).
  rewrite forallb_forall in *. intros p Hp. specialize (C p Hp). cbv beta in C. apply andb_true_iff in C. destruct C as [Hr C]. apply andb_true_iff in Hr. destruct Hr as [R1 R2]. apply Z.leb_le in R1, R2.
  destruct (C61_is_safe_prime f pf (U 16) unit no_probs 0 [] p ltac:(cbn; lia) ltac:(cbn [in_range]; lia) ltac:(lia)) as [r [-> [H1 H2]]].
  destruct (C61_is_safe_prime BigTable Debug (U 16) unit no_probs 0 [] p ltac:(cbn; lia) ltac:(cbn [in_range]; lia) ltac:(lia)) as [r' [E' [H1' H2']]]. rewrite E' in C.
  replace (probably r) with (probably r'); [exact C|]. rewrite <- H1 in H1'. destruct H2 as [-> | ->], H2' as [-> | ->]; try reflexivity; exfalso; [symmetry in H1'|]; pose proof (proj1 H1' eq_refl); try discriminate; pose proof (proj2 H1' eq_refl); discriminate.
Qed.

(** moebius_test, 1194-1226 *)
Definition moebius_of (f : feature) (pf : profile) (t : ity) (n v : Z) : bool := match moebius f pf 50 200 t n [] with Ret (x, _) => x =? v | _ => false end.
Theorem C66_moebius_test : forall f pf,
  forallb (fun '(i, v) => moebius_of f pf usize i v) (combine (map Z.of_nat (seq 1 20)) [1; -1; -1; 0; -1; 1; -1; 0; 0; 1; -1; 0; -1; 1; 1; 0; -1; 0; -1; 0]) = true /\
  moebius_of f pf (U 32) 1024 0 = true /\ moebius_of f pf (U 32) (8081 * 8081) 0 = true /\
  forallb (fun i => moebius_of f pf (U 8) i (-1)) [30; 42; 66; 70; 78; 102; 105; 110; 114; 130; 138; 154; 165; 170; 174; 182; 186; 190; 195; 222] = true /\
  forallb (fun i => moebius_of f pf (U 16) i (-1)) [2310; 2730; 3570; 3990; 4290; 4830; 5610; 6006; 6090; 6270; 6510; 6630; 7410; 7590; 7770; 7854; 8610; 8778; 8970; 9030; 9282; 9570; 9690] = true.
Proof. intros [|] [|]; vmc. Qed.

(** prev_next_test, 1318-1366 *)
Definition next_is (f : feature) (pf : profile) (t : ity) (n : Z) (v : option Z) : bool := match next_prime f pf t 50 200 n None [] with Ret (Some x, _) => (match v with Some y => x =? y | None => false end) | Ret (None, _) => (match v with None => true | _ => false end) | _ => false end.
Definition prev_is (f : feature) (pf : profile) (t : ity) (n : Z) (v : option Z) : bool := match prev_prime f pf t 50 200 n None [] with Ret (Some x, _) => (match v with Some y => x =? y | None => false end) | Ret (None, _) => (match v with None => true | _ => false end) | _ => false end.
Theorem C66_prev_next_test : forall f pf,
  prev_is f pf (U 32) 2 None = true /\ prev_is f pf (U 16) 257 (Some 251) = true /\ next_is f pf (U 16) 251 (Some 257) = true /\ next_is f pf (U 8) 251 None = true /\
  prev_is f pf (U 16) 8167 (Some 8161) = true /\ next_is f pf (U 16) 8161 (Some 8167) = true /\
  forallb (fun '(p1, p2) => prev_is f pf (U 32) p2 (Some p1) && next_is f pf (U 32) p1 (Some p2)) [(2, 3); (3, 5); (5, 7); (11, 13); (17, 19); (29, 31); (41, 43); (617, 619)] = true /\
  forallb (fun '(i, (p1, p2)) => prev_is f pf (U 32) p2 (Some p1) && next_is f pf (U 32) p1 (Some p2) && prev_is f pf (U 32) (10 ^ i) (Some p1) && next_is f pf (U 32) (10 ^ i) (Some p2))
    [(1, (7, 11)); (2, (97, 101)); (3, (997, 1009)); (4, (9973, 10007)); (5, (99991, 100003)); (6, (999983, 1000003)); (7, (9999991, 10000019))] = true.
Proof. intros [|] [|]; vmc. Qed.

(** ** src/factor.rs:327-412 *)

(** pollard_rho_test, 334-337 *)
Definition rho_is (pf : profile) (f : feature) (t : ity) (n s c m : Z) (ok : Z -> bool) : bool := match pollard_rho pf (uops f pf t) n s c m with Ret (Some d, _) => ok d | _ => false end.
Theorem C66_pollard_rho_fixed : forall f pf, rho_is pf f (U 16) 8051 2 1 100 (Z.eqb 97) = true /\ rho_is pf f (U 32) 455459 2 1 100 (Z.eqb 743) = true.
Proof. intros [|] [|]; vmc. Qed.

(** one_line_test, 408-411 *)
Theorem C66_one_line_test : forall f pf, (match one_line f pf (U 32) 11111 11111 100 with Ret (Some d, _) => d =? 271 | _ => false end) = true.
Proof. intros [|] [|]; vmc. Qed.
(** pollard_rho_test, 337: the drawn starting value, for the draws below 128; Montgomery forms, 341-354: for every draw *)
Fixpoint all_below (n : nat) (z : Z) (P : Z -> bool) : bool := match n with O => true | S n' => P z && all_below n' (z + 1) P end.
Lemma all_below_spec : forall n z P, all_below n z P = true -> forall x, z <= x < z + Z.of_nat n -> P x = true.
Proof.
  induction n as [|n IH]; intros z P H x Hx; [lia|]. cbn [all_below] in H. apply andb_true_iff in H. destruct H as [H1 H2].
  destruct (Z.eq_dec x z) as [->|N]; [exact H1 | apply (IH (z + 1) P H2); lia].
Qed.
Example C67_case_pollard_rho : forall f pf s, 0 <= s < 128 -> rho_is pf f (U 16) 8051 s 1 100 (fun d => (d =? 97) || (d =? 83)) = true.
Proof.
  intros f pf s Hs. assert (A : all_below 128 0 (fun s => rho_is pf f (U 16) 8051 s 1 100 (fun d => (d =? 97) || (d =? 83))) = true) by (destruct f, pf; vmc).
  exact (all_below_spec 128 0 _ A s ltac:(cbn; lia)).
Qed.
Theorem C67_pollard_rho_mint : forall f pf target start offset, 1 <= target < 2 ^ 16 -> Z.odd target = true -> 0 <= start < target -> 0 <= offset < target ->
  pollard_rho pf (mops pf (U 16)) (ML target) (MR start target) (MR offset target) 65536 =
  ('(o, i) <- pollard_rho pf (uops f pf (U 16)) target start offset 65536 ;; Ret (option_map ML o, i)).
Proof. intros. apply C23_pollard_rho_agrees; try assumption; try (cbn [valid_ity in_range]; lia). Qed.

(** ** The random assertions of is_prime64_test and exact_root_test that a draw can break *)

(** is_prime64_test, 1086-1090: "create random composites" multiplies two draws, which can give a prime; 1077-1083: a
    random prime can be one of the table. *)
Theorem C67_random_composites_refuted : forall f pf, exists x y, 0 <= x < 2 ^ 32 /\ 0 <= y < 2 ^ 32 /\ is_prime64 f pf (x * y) = Ret true.
Proof. intros f pf. exists 1, 2. split; [lia|]. split; [lia|]. destruct f, pf; vmc. Qed.
Theorem C67_random_primes_refuted : forall f pf, exists x p, 0 <= x < 2 ^ 64 /\ is_prime64 f pf x = Ret true /\ In p (SMALL_PRIMES f) /\ x mod p = 0.
Proof. intros f pf. exists 2, 2. split; [lia|]. split; [destruct f, pf; vmc|]. split; [destruct f; left; reflexivity | reflexivity]. Qed.
(** What holds instead: a product of two factors of at least 2 is never accepted, and a prime of the table divides
    an accepted number only when it is that number. *)
Theorem C67_random_composites : forall f pf x y, 2 <= x < 2 ^ 32 -> 2 <= y < 2 ^ 32 -> x * y < 2 ^ 20 -> is_prime64 f pf (x * y) = Ret false.
Proof.
  intros f pf x y Hx Hy Hb. destruct (exact64 f pf (x * y) Hb) as [b [E I]]. rewrite E. destruct b; [|reflexivity]. exfalso. destruct I as [I _]. specialize (I eq_refl).
  destruct (prime_divisors _ I x ltac:(exists y; ring)) as [C|[C|[C|C]]]; nia.
Qed.

Print Assumptions C66_is_prime64_test.
Print Assumptions C66_is_safe_prime_test.
Print Assumptions C66_moebius_test.
Print Assumptions C66_prev_next_test.
Print Assumptions C66_pollard_rho_fixed.
Print Assumptions C66_one_line_test.
Print Assumptions C67_pollard_rho_mint.
Print Assumptions C67_random_composites_refuted.
Print Assumptions C67_random_primes_refuted.
Print Assumptions C67_random_composites.
