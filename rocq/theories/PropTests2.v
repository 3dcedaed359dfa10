(** * The assertions of the crate's own unit tests, continued (C66): factorizations, buffer, integer, rand. *)
From Coq Require Import ZArith Znumtheory Zpow_facts List Lia Bool Sorted.
From Verif Require Import Base Tables Spec Ext NT PBase PTables MInteger PInteger Ops POps MPrimality MTraits PSprp PropSprp MFactor MSieve MIsPrime PIsPrime PIsPrime2 PropIsPrime MFactorize PFactor PFactorize PFactorize2 PFactorize3 PropFactorize PropFactorize2 NTPock PDoc PropDoc NTRecip PFast PTests PropMint MRand PropRand PropFactor PropLucas PropInteger PropSmall PCerts NTLegendre NTResidue PropTests.
Import ListNotations.
Local Open Scope Z_scope.

(** ** src/nt_funcs.rs: factorizations *)
Lemma p_3 : prime 3. Proof. small_prime. Qed.
Lemma p_5 : prime 5. Proof. small_prime. Qed.
Lemma p_7 : prime 7. Proof. small_prime. Qed.
Lemma p_13 : prime 13. Proof. small_prime. Qed.
Lemma p_3607 : prime 3607. Proof. small_prime. Qed.
Lemma p_3803 : prime 3803. Proof. small_prime. Qed.
Lemma p_8167 : prime 8167. Proof. small_prime. Qed.
Lemma p_2071723 : prime 2071723. Proof. small_prime. Qed.
Ltac by_primes := repeat (apply Forall_cons; [cbn [fst]; first [exact p_3 | exact p_5 | exact p_7 | exact p_13 | exact p_3607 | exact p_3803 | exact p_8167 | exact p_2071723 | exact prime_5363222357 | exact prime_2417851639229258349412369 | small_prime] |]); apply Forall_nil.
Ltac pf := split; [split; [cbn [map fst]; repeat constructor | repeat constructor; cbn [snd]; lia] | split; [by_primes | reflexivity]].

(** factorize64_test, 1095-1106: if the call returns (it may draw for ever), it returns the expected map *)
Theorem C66_factorize64_test : forall f pf fuel dr m dr', 129 < fuel ->
  (factorize64 f pf fuel 4095 dr = Ret (m, dr') -> m = [(3, 2); (5, 1); (7, 1); (13, 1)]) /\
  (factorize64 f pf fuel 123456789 dr = Ret (m, dr') -> m = [(3, 2); (3607, 1); (3803, 1)]) /\
  (factorize64 f pf fuel 11111111111111111 dr = Ret (m, dr') -> m = [(2071723, 1); (5363222357, 1)]).
Proof.
  intros f pf fuel dr m dr' Hf. split; [|split]; intros E.
  - refine (factorize64_only f pf fuel _ [3; 3; 5; 7; 13] _ dr m dr' _ Hf _ _ _ _ E); [lia | by_primes | reflexivity | destruct f, pf; vmc | pf].
  - refine (factorize64_only f pf fuel _ [3; 3; 3607; 3803] _ dr m dr' _ Hf _ _ _ _ E); [lia | by_primes | reflexivity | destruct f, pf; vmc | pf].
  - refine (factorize64_only f pf fuel _ [2071723; 5363222357] _ dr m dr' _ Hf _ _ _ _ E); [lia | by_primes | reflexivity | destruct f, pf; vmc | pf].
Qed.
(** 4095 is factored without a draw, and so is 123456789 with the big table. *)
Theorem C66_factorize64_returns : forall f pf fuel dr, 129 < fuel -> factorize64 f pf fuel 4095 dr = Ret ([(3, 2); (5, 1); (7, 1); (13, 1)], dr) /\
  (f = BigTable -> factorize64 f pf fuel 123456789 dr = Ret ([(3, 2); (3607, 1); (3803, 1)], dr)).
Proof.
  intros f pf fuel dr Hf. split.
  - destruct (C28_returns f pf fuel 4095 4095 1 dr ltac:(lia) Hf eq_refl ltac:(lia)) as [m [E Fm]].
    + intros p Pp D. apply (prime_divides_list p [3; 3; 5; 7; 13] Pp) in D; [|by_primes]. rewrite small_next. cbn [In] in D. destruct f; lia.
    + left. reflexivity.
    + intros C. exfalso. revert C. destruct f, pf; vm_compute; discriminate.
    + rewrite E. f_equal. f_equal. apply (prime_factorization_unique 4095); [exact Fm | pf].
  - intros ->. destruct (C28_returns BigTable pf fuel 123456789 123456789 1 dr ltac:(lia) Hf eq_refl ltac:(lia)) as [m [E Fm]].
    + intros p Pp D. apply (prime_divides_list p [3; 3; 3607; 3803] Pp) in D; [|by_primes]. rewrite small_next. cbn [In] in D. lia.
    + left. reflexivity.
    + intros C. exfalso. revert C. destruct pf; vm_compute; discriminate.
    + rewrite E. f_equal. f_equal. apply (prime_factorization_unique 123456789); [exact Fm | pf].
Qed.
(** factorize64_test 1109-1114 and factorize128_test 1146-1152: the powers of 8167, which is the first prime beyond
    both tables *)
Theorem C66_powers_test : forall f pf lf fuel e dr m dr', 129 < fuel -> Z.of_nat lf <= 2 ^ 61 -> 2 <= e <= 9 -> factorize128 f pf lf fuel (8167 ^ e) dr = Ret (m, dr') -> m = [(8167, e)].
Proof.
  intros f pf lf fuel e dr m dr' Hf Hlf He E.
  assert (C : e = 2 \/ e = 3 \/ e = 4 \/ e = 5 \/ e = 6 \/ e = 7 \/ e = 8 \/ e = 9) by lia.
  assert (N : 1 <= 8167 ^ e < 2 ^ 128) by (repeat destruct C as [-> | C]; try subst e; lia).
  refine (factorize128_only f pf lf fuel _ (repeat 8167 9) _ dr m dr' N Hf Hlf _ _ _ _ E).
  - apply Forall_forall. intros x Hx. apply repeat_spec in Hx. subst x. exact p_8167.
  - exists (8167 ^ (9 - e)). rewrite <- Z.pow_add_r by lia. replace (9 - e + e) with 9 by lia. vm_compute. reflexivity.
  - destruct f, pf; vmc.
  - split; [split; [cbn [map fst]; repeat constructor | repeat constructor; cbn [snd]; lia] | split; [apply Forall_cons; [exact p_8167 | apply Forall_nil] |]]. cbn [prod_powers]. ring.
Qed.
(** factorize128_test, 1135-1143: nothing is drawn *)
Theorem C66_factorize128_test : forall f pf lf fuel dr, 129 < fuel -> 4 <= Z.of_nat lf <= 2 ^ 61 ->
  factorize128 f pf lf fuel 7858321551080267055879090 dr = Ret (map (fun p => (p, 1)) (firstn 19 (SMALL_PRIMES f)), dr) /\
  factorize128 f pf lf fuel 403781223751286144351865623 dr = Ret ([(167, 1); (2417851639229258349412369, 1)], dr).
Proof.
  intros f pf lf fuel dr Hf Hlf. split.
  - set (l := [2; 3; 5; 7; 11; 13; 17; 19; 23; 29; 31; 37; 41; 43; 47; 53; 59; 61; 67]). replace (firstn 19 (SMALL_PRIMES f)) with l by (destruct f; reflexivity).
    assert (Pl : Forall prime l) by (unfold l; by_primes).
    destruct (C29_returns f pf lf fuel 7858321551080267055879090 7858321551080267055879090 1 dr ltac:(lia) Hf ltac:(lia) eq_refl ltac:(lia)) as [m [E Fm]].
    + intros p Pp D. apply (prime_divides_list p l Pp Pl) in D. rewrite small_next. unfold l in D. cbn [In] in D. destruct f; lia.
    + left. reflexivity.
    + left. lia.
    + rewrite E. f_equal. f_equal. apply (prime_factorization_unique 7858321551080267055879090); [exact Fm|]. unfold l. cbn [map]. pf.
  - destruct (factorize128_total f pf lf fuel ltac:(lia) Hf 403781223751286144351865623 167 2417851639229258349412369 dr ltac:(lia) eq_refl ltac:(lia)) as [[m [E Fm]]|[_ [C _]]].
    + intros p Pp D. apply (prime_divides_prime p 167 Pp prime_167) in D. subst p. rewrite small_next. destruct f; lia.
    + right. exact prime_2417851639229258349412369.
    + rewrite E. f_equal. f_equal. apply (prime_factorization_unique 403781223751286144351865623); [exact Fm | pf].
    + exfalso. apply (not_short 2417851639229258349412369 2417851639229258349412358 11 lf prime_2417851639229258349412369 eq_refl eq_refl ltac:(lia)) in C; [exact C | | vm_compute; reflexivity].
      apply eqm_mod_eq; [lia | reflexivity].
Qed.
(** 1118-1130: the drawn number of the random tests can be 0, which factorize64 and factorize128 do not survive in
    debug builds (C28). *)
Theorem C67_random_factorization_refuted : forall f, exists x, 0 <= x < 2 ^ 64 /\ forall fuel, factorize64 f Debug fuel x [] = Panic.
Proof. intros f. exists 0. split; [lia|]. intros fuel. reflexivity. Qed.

(** ** src/buffer.rs:479-673 *)

(** prime_generation_test, 489-509 *)
Definition prime50 : list Z := [2; 3; 5; 7; 11; 13; 17; 19; 23; 29; 31; 37; 41; 43; 47].
Definition prime300 : list Z := [2; 3; 5; 7; 11; 13; 17; 19; 23; 29; 31; 37; 41; 43; 47; 53; 59; 61; 67; 71; 73; 79; 83; 89; 97; 101; 103; 107; 109; 113; 127; 131; 137; 139; 149; 151; 157; 163; 167; 173; 179;
  181; 191; 193; 197; 199; 211; 223; 227; 229; 233; 239; 241; 251; 257; 263; 269; 271; 277; 281; 283; 293].
Definition same_list (r : res (list Z * buffer)) (l : list Z) : bool := match r with Ret (x, _) => if list_eq_dec Z.eq_dec x l then true else false | _ => false end.
Definition last_is (r : res (list Z * buffer)) (p : Z) : bool := match r with Ret (x, _) => last x 0 =? p | _ => false end.
Theorem C66_prime_generation_test : forall f pf,
  (match buf_primes pf (buf_new f) 50 with Ret (l, b) => same_list (Ret (l, b)) prime50 && same_list (buf_primes pf b 300) prime300 &&
     (match buf_primes pf b 300 with Ret (_, b2) => same_list (buf_primes pf (buf_clear b2) 293) prime300 | _ => false end) | _ => false end) = true /\
  last_is (buf_primes pf (buf_new f) 257) 257 = true /\ last_is (buf_primes pf (buf_new f) 8167) 8167 = true.
Proof. intros [|] [|]; vmc. Qed.

(** is_prime_test, 551-562 and 576-604: the named primes and the composite Mersenne number *)
Theorem C66_is_prime_small : forall f pf A (PR : probs A) lf dr, nt_is_prime f pf (uops f pf (U 32)) PR lf (2 ^ 19 - 1) None dr = Ret (Yes, dr) /\ nt_is_prime f pf (uops f pf (U 32)) PR lf (2 ^ 23 - 1) None dr = Ret (No, dr).
Proof.
  intros f pf A PR lf dr. unfold nt_is_prime.
  destruct (C12_is_prime_definite f pf (U 32) (2 ^ 19 - 1) ltac:(cbn; lia) ltac:(cbn [in_range]; lia) ltac:(lia)) as [b [E [H _]]].
  destruct (C12_is_prime_definite f pf (U 32) (2 ^ 23 - 1) ltac:(cbn; lia) ltac:(cbn [in_range]; lia) ltac:(lia)) as [b' [E' [H' _]]].
  rewrite H, H'. assert (B : is_prime64 f pf (2 ^ 19 - 1) = Ret true) by (destruct f, pf; vmc). assert (B' : is_prime64 f pf (2 ^ 23 - 1) = Ret false) by (destruct f, pf; vmc).
  rewrite B in E. rewrite B' in E'. injection E as <-. injection E' as <-. split; reflexivity.
Qed.
Definition test_primes : list Z := [2 ^ 89 - 1; 18699199384836356663; 2019922777445599503530083].
Lemma test_primes_prime : Forall prime test_primes.
Proof. constructor; [exact mersenne_89|]. constructor; [exact prime_18699199384836356663|]. constructor; [exact prime_2019922777445599503530083 | constructor]. Qed.
Theorem C66_is_prime_bpsw : forall f pf lf p dr, In p test_primes -> 2 <= Z.of_nat lf <= 2 ^ 61 ->
  nt_is_prime f pf (uops f pf u128) no_probs lf p (Some pc_bpsw) dr = Ret (Probable tt, dr) /\ nt_is_prime f pf (mops pf u128) no_probs lf (ML p) (Some pc_bpsw) dr = Ret (Probable tt, dr).
Proof.
  intros f pf lf p dr Hp Hlf.
  assert (Q : in_range u128 p /\ 2 ^ 64 <= p /\ Z.odd p = true) by (cbn [test_primes In u128 in_range] in *; destruct Hp as [<-|[<-|[<-|[]]]]; split; [lia | split; [lia | reflexivity] | lia | split; [lia | reflexivity] | lia | split; [lia | reflexivity]]).
  destruct Q as [Q1 [Q2 Q3]]. rewrite (C23_is_prime_agrees f pf u128 p) by (cbn; try reflexivity; try lia; assumption).
  assert (G : nt_is_prime f pf (uops f pf u128) no_probs lf p (Some pc_bpsw) dr = Ret (Probable tt, dr)); [|split; exact G].
  assert (T : valid_ity u128) by (cbn; lia). assert (Hl : Z.of_nat lf <= 2 ^ 61) by lia. pose proof test_primes_prime as TP. rewrite Forall_forall in TP. specialize (TP p Hp).
  assert (W : exists a d, Z.odd d = true /\ 5 <= d <= 7 /\ star d =[p]= a /\ Zpow_mod a ((p - 1) / 2) p = p - 1).
  { clear - Hp. destruct Hp as [<-|[<-|[<-|[]]]]; [exists (2 ^ 89 - 8), 7 | exists 5, 5 | exists 5, 5]; (split; [reflexivity|]); (split; [lia|]); (split; [apply eqm_mod_eq; [lia | reflexivity] | vm_compute; reflexivity]). }
  destruct W as [a [d [W1 [W2 [W3 W4]]]]]. apply (bpsw_on_prime f pf u128 p lf a d dr T Q1 Q2 TP Q3 Hl W1 ltac:(lia) W3 W4).
Qed.
(** The default configuration draws three witnesses: unless one of them is 0 modulo 2^64 the answer is right. *)
Theorem C66_is_prime_default : forall f pf lf p dr, In p test_primes -> Z.of_nat lf <= 2 ^ 31 -> (forall x, In x dr -> x mod 2 ^ 64 <> 0) ->
  nt_is_prime f pf (uops f pf u128) no_probs lf p None dr <> Panic /\
  (forall r dr', nt_is_prime f pf (uops f pf u128) no_probs lf p None dr = Ret (r, dr') -> r = Probable tt) /\
  nt_is_prime f pf (mops pf u128) no_probs lf (ML p) None dr = nt_is_prime f pf (uops f pf u128) no_probs lf p None dr.
Proof.
  intros f pf lf p dr Hp Hlf Hd. pose proof test_primes_prime as T. rewrite Forall_forall in T. specialize (T p Hp).
  assert (Q : in_range u128 p /\ 2 ^ 64 <= p /\ Z.odd p = true /\ Z.log2 (p + 1) < 2 ^ 64).
  { cbn [test_primes In u128 in_range] in *; destruct Hp as [<-|[<-|[<-|[]]]]; (split; [lia|]); (split; [lia|]); (split; [reflexivity|]); reflexivity. }
  destruct Q as [Q1 [Q2 [Q3 Q4]]]. destruct (default_on_prime f pf u128 p lf dr ltac:(cbn; lia) Q1 Q2 T Hlf Q4 Hd) as [A B]. split; [exact A|]. split; [exact B|].
  apply C23_is_prime_agrees_default; try assumption; cbn; lia.
Qed.
(** 564-573: on every 64-bit number the test with a configuration agrees with is_prime64 *)
Theorem C67_is_prime_random : forall f pf A (PR : probs A) lf n dr, 0 <= n < 2 ^ 64 -> exists b, is_prime64 f pf n = Ret b /\ nt_is_prime f pf (uops f pf u64) PR lf n (Some pc_bpsw) dr = Ret (if b then Yes else No, dr).
Proof. intros f pf A PR lf n dr Hn. destruct (C12_is_prime_definite f pf u64 n ltac:(cbn; lia) Hn ltac:(lia)) as [b [E [H _]]]. exists b. split; [exact E | apply H]. Qed.
Print Assumptions C66_factorize64_test.
Print Assumptions C66_factorize64_returns.
Print Assumptions C66_powers_test.
Print Assumptions C66_factorize128_test.
Print Assumptions C67_random_factorization_refuted.
Print Assumptions C66_prime_generation_test.
Print Assumptions C66_is_prime_small.
Print Assumptions C66_is_prime_bpsw.
Print Assumptions C66_is_prime_default.
Print Assumptions C67_is_prime_random.
