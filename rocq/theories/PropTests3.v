(** * The assertions of the crate's own unit tests, continued (C66): factorizations, buffer, integer, rand. *)
From Coq Require Import ZArith Znumtheory Zpow_facts List Lia Bool Sorted.
From Verif Require Import Base Tables Spec Ext NT PBase PTables MInteger PInteger Ops POps MPrimality MTraits PSprp PropSprp MFactor MSieve MIsPrime PIsPrime PIsPrime2 PropIsPrime MFactorize PFactor PFactorize PFactorize2 PFactorize3 PropFactorize PropFactorize2 NTPock PDoc PropDoc NTRecip PFast PTests PropMint MRand PropRand PropFactor PropLucas PropInteger PropSmall PCerts NTLegendre NTResidue PropTests PropTests2 NTLucas.
Import ListNotations.
Local Open Scope Z_scope.

(** pb_factors_test, 663-672, with the big table (263 is beyond the small one): unless a drawn witness is 0 modulo
    2^64, a call that returns gives the two prime factors and leaves nothing over. *)
Definition big_cofactor : Z := 10350794431055162386718619237468234569.
Theorem C66_pb_factors_test : forall pf lf dr m rest dr', Z.of_nat lf <= 2 ^ 31 -> (forall x, In x dr -> x mod 2 ^ 64 <> 0) ->
  factors BigTable pf lf 200 Big (buf_iter (buf_new BigTable)) (2 ^ 131 - 1) None dr = Ret (m, rest, dr') -> m = [(263, 1); (big_cofactor, 1)] /\ rest = None.
Proof.
  intros pf lf dr m rest dr' Hlf Hd. unfold factors. replace (2 ^ 131 - 1 <? 2 ^ 128) with false by reflexivity. cbv zeta.
  assert (T : trial_division (uops BigTable pf Big) 200 (buf_iter (buf_new BigTable)) (2 ^ 131 - 1) (td_limit fc_default) = Ret ([(263, 1)], inr big_cofactor)) by (destruct pf; vmc).
  rewrite T. cbn [bind]. replace (collect_map BigTable pf Big [(263, 1)]) with (Ret [(263, 1)]) by (destruct pf; reflexivity). cbn [bind].
  unfold loop. cbv iota beta. replace 200 with (198 + 1 + 1) by reflexivity. rewrite iter_succ by lia. cbn [factors_step].
  assert (P : prime big_cofactor) by exact prime_10350794431055162386718619237468234569.
  pose proof (C13_is_prime_never_rejects BigTable pf Big big_cofactor unit no_probs lf (buf_iter (buf_new BigTable)) (Some (primality_config fc_default)) dr I ltac:(unfold big_cofactor; cbn [in_range]; lia) P
    ltac:(intros w Hw; apply new_buf_range in Hw; lia) Hd Hlf eq_refl) as H.
  destruct (is_prime BigTable pf (uops BigTable pf Big) no_probs lf (buf_iter (buf_new BigTable)) big_cofactor (Some (primality_config fc_default)) dr) as [[r d]| |]; cbn [bind kbind]; [|contradiction | discriminate].
  rewrite H. cbn [bind kbind]. rewrite iter_succ by lia. cbn [factors_step kbind bind]. intros E. injection E as <- <- _. split; reflexivity.
Qed.

(** ** src/integer.rs:156-249 *)
Theorem C66_exact_root_small : forall pf, map (sqrt_exact_prim pf 8) [3; 4; 9; 18] = [Ret None; Ret (Some 2); Ret (Some 3); Ret None].
Proof. intros [|]; reflexivity. Qed.
(** 173-188: sqrt_exact agrees with nth_root_exact for every non-zero u32, and cbrt_exact for every u32 and i32. *)
Theorem C67_root_agreement : forall pf x, (0 < x < 2 ^ 32 -> sqrt_exact_prim pf 32 x = nth_root_exact x 2) /\ cbrt_exact_prim x = nth_root_exact x 3.
Proof.
  intros pf x. split; [|reflexivity]. intros Hx. destruct (C41_sqrt_exact_machine pf 32 x Hx) as [A B]. destruct (C43_nth_root_exact_nonneg x 2 ltac:(lia) ltac:(lia)) as [C [D [b E]]].
  unfold is_nth_power in *. destruct (nth_root_exact x 2) as [[r|]| |] eqn:N; cbn [bind] in *; try discriminate.
  - apply A. destruct (C r) as [C1 _]. destruct (C1 eq_refl) as [C2 C3]. rewrite Z.pow_2_r in C3. auto.
  - apply B. intros [r Er]. assert (Ret (@None Z) = Ret (Some (Z.abs r))); [|discriminate]. apply C. split; [lia|]. rewrite Z.pow_2_r. rewrite <- Er. destruct (Z.abs_spec r) as [[_ ->]|[_ ->]]; ring.
Qed.
(** The draw 0 breaks the assertion of line 175: sqrt_exact panics in debug builds and answers None in release builds,
    nth_root_exact answers Some(0). The same draw breaks line 192. *)
Theorem C67_root_agreement_refuted : sqrt_exact_prim Debug 32 0 = Panic /\ sqrt_exact_prim Release 32 0 = Ret None /\ nth_root_exact 0 2 = Ret (Some 0) /\ sqrt_exact_prim Debug 64 (0 * 0) = Panic /\ sqrt_exact_prim Release 64 (0 * 0) = Ret None.
Proof. vmc. Qed.
(** 190-195: perfect powers *)
Theorem C67_perfect_powers : forall pf x, (0 < x < 2 ^ 32 -> sqrt_exact_prim pf 64 (x * x) = Ret (Some x)) /\ (- 2 ^ 15 <= x < 2 ^ 15 -> cbrt_exact_prim (x * x * x) = Ret (Some x)).
Proof.
  intros pf x. split; intros Hx.
  - apply (C41_sqrt_exact_machine pf 64); [nia|]. split; [lia | reflexivity].
  - unfold cbrt_exact_prim. destruct (C43_nth_root_exact_odd_degree (x * x * x) 3 ltac:(lia) eq_refl) as [A [B C]]. unfold is_nth_power in C.
    assert (E : is_nth_power (x * x * x) 3 = Ret true) by (apply C; exists x; ring). unfold is_nth_power in E. destruct (nth_root_exact (x * x * x) 3) as [[r|]| |]; cbn [bind] in E; try discriminate.
    specialize (A r eq_refl). f_equal. f_equal. destruct (Z.eq_dec r x) as [H|H]; [exact H|]. exfalso.
    assert (F : (x - r) * (x * x + x * r + r * r) = 0) by (replace (r ^ 3) with (r * r * r) in A by ring; nia). apply Z.mul_eq_0 in F. destruct F as [F|F]; [lia|].
    assert (G : (2 * x + r) * (2 * x + r) + 3 * (r * r) = 4 * (x * x + x * r + r * r)) by ring. rewrite F in G.
    pose proof (Z.square_nonneg (2 * x + r)) as S1. pose proof (Z.square_nonneg r) as S2. unfold Z.square in *. assert (R0 : r * r = 0) by lia. assert (R1 : (2 * x + r) * (2 * x + r) = 0) by lia.
    apply Z.mul_eq_0 in R0, R1. lia.
Qed.
(** 197-204: two different numbers can have a square product. *)
Theorem C67_non_perfect_refuted : forall pf, exists x y, 0 <= x < 2 ^ 32 /\ 0 <= y < 2 ^ 32 /\ x <> y /\ sqrt_exact_prim pf 64 (x * y) = Ret (Some 2).
Proof. intros pf. exists 1, 4. split; [lia|]. split; [lia|]. split; [lia|]. destruct pf; vmc. Qed.
(** 207-247: big integers of any size *)
Theorem C67_root_agreement_big : forall f pf x, 0 <= x -> sqrt_exact_big f pf x = nth_root_exact x 2 /\ cbrt_exact_big f pf x = nth_root_exact x 3 /\ sqrt_exact_big f pf (x * x) = Ret (Some x) /\ cbrt_exact_big f pf (x * x * x) = Ret (Some x).
Proof.
  intros f pf x Hx. destruct (C42_sqrt_exact_biguint f pf x Hx) as [A B]. destruct (C42_cbrt_exact_biguint f pf x Hx) as [A3 B3].
  split; [|split; [|split]].
  - destruct (C43_nth_root_exact_nonneg x 2 ltac:(lia) Hx) as [C [D [b E]]]. unfold is_nth_power in *. destruct (nth_root_exact x 2) as [[r|]| |] eqn:N; cbn [bind] in *; try discriminate.
    + apply A. destruct (C r) as [C1 _]. destruct (C1 eq_refl) as [C2 C3]. rewrite Z.pow_2_r in C3. auto.
    + apply B. intros [r Er]. assert (Ret (@None Z) = Ret (Some (Z.abs r))); [|discriminate]. apply C. split; [lia|]. rewrite Z.pow_2_r. rewrite <- Er. destruct (Z.abs_spec r) as [[_ ->]|[_ ->]]; ring.
  - destruct (C43_nth_root_exact_nonneg x 3 ltac:(lia) Hx) as [C [D [b E]]]. unfold is_nth_power in *. destruct (nth_root_exact x 3) as [[r|]| |] eqn:N; cbn [bind] in *; try discriminate.
    + apply A3. destruct (C r) as [C1 _]. exact (proj2 (C1 eq_refl)).
    + apply B3. intros [r Er]. assert (Ret (@None Z) = Ret (Some r)); [|discriminate]. apply C. split; [nia | exact Er].
  - apply (C42_sqrt_exact_biguint f pf (x * x)); [nia|]. split; [exact Hx | reflexivity].
  - apply (C42_cbrt_exact_biguint f pf (x * x * x)); [nia|]. ring.
Qed.
Theorem C67_root_agreement_bigint : forall f pf x, cbrt_exact_bigint f pf x = nth_root_exact x 3.
Proof.
  intros f pf x. destruct (C42_cbrt_exact_bigint f pf x) as [A B]. destruct (C43_nth_root_exact_odd_degree x 3 ltac:(lia) eq_refl) as [C [D E]]. unfold is_nth_power in E.
  destruct (nth_root_exact x 3) as [[r|]| |] eqn:N; cbn [bind] in E.
  - apply A, C. reflexivity.
  - apply B, D. reflexivity.
  - exfalso. assert (G : ~ exists r, r ^ 3 = x) by (intros C'; apply E in C'; discriminate). apply D in G. discriminate.
  - exfalso. assert (G : ~ exists r, r ^ 3 = x) by (intros C'; apply E in C'; discriminate). apply D in G. discriminate.
Qed.

(** ** src/primality.rs:390-508 *)

(** fermat_prp_test, 400-410; sprp_test, 413-427 *)
Theorem C66_prp_test : forall f pf, is_prp (uops f pf (U 16)) 341 2 = Ret true /\ is_prp (uops f pf (U 16)) 340 2 = Ret false /\ is_prp (uops f pf (U 16)) 105 2 = Ret false /\
  forallb (fun p => same_bool (is_prp (uops f pf (U 32)) 561 p) true) [2; 5; 7; 13; 19] = true.
Proof. intros [|] [|]; vmc. Qed.
Theorem C66_sprp_test : forall f pf, forallb (fun n => same_bool (is_sprp (uops f pf (U 16)) n 2) true) [2047; 3277; 4033; 4681; 8321] = true /\ test_sprp (uops f pf (U 16)) 341 2 = Ret (inr 31) /\
  forallb (fun n => same_bool (is_sprp (mops pf (U 16)) (ML n) (ML 2)) true) [2047; 3277; 4033; 4681; 8321] = true /\ test_sprp (mops pf (U 16)) (ML 341) (ML 2) = Ret (inr (ML 31)).
Proof. intros [|] [|]; vmc. Qed.

(** lucas_mod_test, 430-508. *)
Definition p3qm1 : list Z := [0; 1; 3; 10; 33; 109; 360; 1189; 3927; 12970; 42837; 141481; 467280; 1543321; 5097243; 16835050; 55602393; 183642229; 606529080; 2003229469; 6616217487; 21851881930; 72171863277; 238367471761; 787274278560; 2600190307441].
Theorem C67_lucas_listed : forall f pf t m n, t = u64 \/ t = Big -> 1 <= m < 2 ^ 16 -> 2 <= n < 26 -> exists v, lucasm pf (uops f pf t) 3 (-1) m n = Ret (nth (Z.to_nat n) p3qm1 0 mod m, v).
Proof.
  intros f pf t m n Ht Hm Hn. exists (lucasV 3 (-1) n mod m).
  rewrite C19_lucasm_exact; try lia; try (destruct Ht as [-> | ->]; cbn; try exact I; lia).
  f_equal. f_equal. f_equal. revert n Hn.
  assert (A : forallb (fun k => lucasU 3 (-1) k =? nth (Z.to_nat k) p3qm1 0) (map Z.of_nat (seq 2 24)) = true) by vmc.
  rewrite forallb_forall in A. intros n Hn. apply Z.eqb_eq, A. apply in_map_iff. exists (Z.to_nat n). split; [lia|]. apply in_seq. lia.
Qed.
(** The drawn modulus can be 0: lucasm panics, and so does the remainder in the assertion. *)
Theorem C67_lucas_listed_refuted : forall f pf n, 2 <= n < 26 -> lucasm pf (uops f pf u64) 3 (-1) 0 n = Panic.
Proof.
  intros f pf n Hn. assert (A : forallb (fun k => match lucasm pf (uops f pf u64) 3 (-1) 0 k with Panic => true | _ => false end) (map Z.of_nat (seq 2 24)) = true) by (destruct f, pf; vmc).
  rewrite forallb_forall in A. specialize (A n). destruct (lucasm pf (uops f pf u64) 3 (-1) 0 n); try reflexivity; exfalso; (assert (false = true); [|discriminate]); apply A; apply in_map_iff; exists (Z.to_nat n); (split; [lia|]); apply in_seq; lia.
Qed.
(** lucasm_naive, 472-492: absm, mulm and subm are reductions modulo m; p % m panics for m = 0 *)
Definition naive_step (p q m : Z) (s : Z * Z * Z * Z) : Z * Z * Z * Z :=
  let '(um1, u, vm1, v) := s in (u, (p * u mod m - q * um1 mod m) mod m, v, (p * v mod m - q * vm1 mod m) mod m).
Definition lucasm_naive (p q m n : Z) : res (Z * Z) :=
  if n =? 0 then Ret (0, 2) else if m =? 0 then Panic
  else let '(_, u, _, v) := Nat.iter (Z.to_nat (n - 1)) (naive_step p (q mod m) m) (0, 1, 2, p mod m) in Ret (u, v).
Lemma naive_iter : forall p q m k, 1 <= m -> let '(um1, u, vm1, v) := Nat.iter k (naive_step p (q mod m) m) (0, 1, 2, p mod m) in
  um1 mod m = lucasU p q (Z.of_nat k) mod m /\ u mod m = lucasU p q (Z.of_nat k + 1) mod m /\ vm1 mod m = lucasV p q (Z.of_nat k) mod m /\ v mod m = lucasV p q (Z.of_nat k + 1) mod m /\
  (k = 0%nat /\ u = 1 /\ v = p mod m \/ (0 < k)%nat /\ u mod m = u /\ v mod m = v).
Proof.
  intros p q m k Hm. induction k as [|k IH].
  - cbn [Nat.iter nat_rect]. change (Z.of_nat 0) with 0. change (0 + 1) with 1. rewrite U_0, U_1, V_0, V_1. rewrite Z.mod_mod by lia. repeat split; auto.
  - cbn [Nat.iter nat_rect]. unfold Nat.iter in *. destruct (nat_rect _ _ _ k) as [[[um1 u] vm1] v]. cbn [naive_step]. destruct IH as [A [B [C [D _]]]].
    replace (Z.of_nat (S k)) with (Z.of_nat k + 1) by lia. split; [exact B|]. assert (R : forall X : Z, (X mod m) mod m = X mod m) by (intros X; apply Z.mod_mod; lia).
    assert (S : forall a b A' B', a mod m = A' mod m -> b mod m = B' mod m -> ((p * a mod m - q mod m * b mod m) mod m) mod m = (p * A' - q * B') mod m).
    { intros a b A' B' Ea Eb. rewrite R. rewrite <- Zminus_mod. rewrite (Zminus_mod (p * a)), (Zminus_mod (p * A')). rewrite (Z.mul_mod p a), (Z.mul_mod p A'), Ea by lia.
      rewrite (Z.mul_mod (q mod m) b), (Z.mul_mod q B'), Eb, R by lia. reflexivity. }
    split; [|split; [exact D | split; [|right; split; [lia | split; apply R]]]].
    + rewrite (S u um1 _ _ B A). f_equal. replace (Z.of_nat k + 1 + 1) with (Z.of_nat k + 2) by lia. symmetry. apply U_rec. lia.
    + rewrite (S v vm1 _ _ D C). f_equal. replace (Z.of_nat k + 1 + 1) with (Z.of_nat k + 2) by lia. symmetry. apply V_rec. lia.
Qed.
(** 493-507: the comparison with the naive computation, for every draw except the ones below *)
Theorem C67_lucas_naive : forall f pf p q m n, 0 <= p < 2 ^ 16 -> - 2 ^ 15 <= q < 2 ^ 15 -> 0 <= m < 2 ^ 16 -> 0 <= n < 2 ^ 8 -> 3 <= m \/ (m = 2 /\ 1 <= n) \/ (m = 1 /\ 2 <= n) ->
  lucasm pf (uops f pf (U 16)) p q m n = lucasm_naive p q m n.
Proof.
  intros f pf p q m n Hp Hq Hm Hn C. rewrite C19_lucasm_exact; try lia; try (cbn; lia). unfold lucasm_naive. destruct (Z.eqb_spec n 0) as [->|N].
  - rewrite U_0, V_0. rewrite !Z.mod_small by lia. reflexivity.
  - replace (m =? 0) with false by (symmetry; apply Z.eqb_neq; lia). pose proof (naive_iter p q m (Z.to_nat (n - 1)) ltac:(lia)) as I. destruct (Nat.iter _ _ _) as [[[um1 u] vm1] v].
    replace (Z.of_nat (Z.to_nat (n - 1)) + 1) with n in I by lia. destruct I as [_ [B [_ [D E]]]]. rewrite <- B, <- D. destruct E as [[E1 [E2 E3]]|[_ [E2 E3]]].
    + rewrite E2, E3. rewrite Z.mod_mod by lia. rewrite (Z.mod_small 1) by lia. reflexivity.
    + rewrite E2, E3. reflexivity.
Qed.
(** The draws that break the comparison: m = 0 (a panic unless both give up alike), n = 0 with m below 3, n = 1 with m = 1. *)
Theorem C67_lucas_naive_refuted : forall f pf, lucasm pf (uops f pf (U 16)) 5 7 1 1 = Ret (0, 0) /\ lucasm_naive 5 7 1 1 = Ret (1, 0) /\
  lucasm pf (uops f pf (U 16)) 5 7 2 0 = Ret (0, 0) /\ lucasm_naive 5 7 2 0 = Ret (0, 2) /\
  lucasm pf (uops f pf (U 16)) 5 7 0 9 = Panic /\ lucasm_naive 5 7 0 9 = Panic.
Proof. intros [|] [|]; vmc. Qed.

(** ** src/rand.rs:205-284 *)

(** rand_prime, 214-221 and rand_prime_exact 253-258: whatever is drawn, a returned value passes is_prime64 and the
    exact variants have their top bit set *)
Theorem C67_rand_prime : forall f pf lf fuel w dr p dr', w = 8 \/ w = 16 \/ w = 32 \/ w = 64 -> Z.of_nat lf <= 2 ^ 31 ->
  (gen_prime_prim f pf lf fuel w false w dr = Ret (p, dr') -> is_prime64 f pf p = Ret true) /\
  (gen_prime_prim f pf lf fuel w true w dr = Ret (p, dr') -> is_prime64 f pf p = Ret true /\ 2 ^ (w - 1) <= p < 2 ^ w).
Proof.
  intros f pf lf fuel w dr p dr' Hw Hlf. assert (V : valid_ity (U w)) by (cbn; lia). split; intros E.
  - destruct (C38_gen_prime f pf lf fuel w w dr p dr' V ltac:(lia) ltac:(lia) Hlf E) as [pre [x [_ H]]]. cbv zeta in H. tauto.
  - destruct (C39_full_width f pf lf fuel w dr p dr' V ltac:(lia) Hlf E) as [A B]. auto.
Qed.
(** 241-245, "test bit size limit": p < 2^12 and p < 2^24 fail when the drawn bits are all ones. *)
Theorem C67_bit_limit_refuted : forall f pf, gen_prime_prim f pf 50 300 16 false 12 [2 ^ 16 - 1] = Ret (4099, []) /\ gen_prime_prim f pf 50 300 32 false 24 [2 ^ 32 - 1] = Ret (16777259, []).
Proof. intros [|] [|]; vmc. Qed.
(** What holds: the limit is kept unless the draw lies beyond the last prime below it. *)
Theorem C67_bit_limit : forall f pf lf fuel dr p dr', Z.of_nat lf <= 2 ^ 31 ->
  (gen_prime_prim f pf lf fuel 16 false 12 dr = Ret (p, dr') -> exists x, In x dr /\ (x mod 2 ^ 16 / 2 ^ 4 < 4094 -> p < 2 ^ 12)) /\
  (gen_prime_prim f pf lf fuel 32 false 24 dr = Ret (p, dr') -> exists x, In x dr /\ (x mod 2 ^ 32 / 2 ^ 8 < 16777214 -> p < 2 ^ 24)).
Proof.
  intros f pf lf fuel dr p dr' Hlf.
  assert (G : forall w b q, valid_ity (U w) -> w <= 64 -> 1 <= b <= w -> prime q -> Z.odd q = true -> q < 2 ^ b -> gen_prime_prim f pf lf fuel w false b dr = Ret (p, dr') ->
    exists x, In x dr /\ (x mod 2 ^ w / 2 ^ (w - b) < q + 1 -> p < 2 ^ b)).
  { intros w b q V W B Pq Oq Hq E. destruct (C38_gen_prime f pf lf fuel w b dr p dr' V W B Hlf E) as [pre [x [Ed H]]]. exists x. split; [rewrite Ed; apply in_elt|]. intros L. cbv zeta in H.
    destruct H as [_ [_ [_ [_ H]]]]. apply (H q Pq). split; [|exact Hq]. set (y := x mod 2 ^ w / 2 ^ (w - b)) in *.
    destruct (Z.odd y) eqn:Oy.
    - replace (Z.lor y 1) with y; [lia|]. apply Z.bits_inj'. intros i Hi. rewrite Z.lor_spec. destruct (Z.eq_dec i 0) as [->|Ni]; [rewrite Z.bit0_odd, Oy; reflexivity|]. rewrite Z.bits_above_log2 with (a := 1) by (cbn; lia). rewrite orb_false_r. reflexivity.
    - replace (Z.lor y 1) with (y + 1).
      + assert (y <> q) by (intros ->; congruence). lia.
      + rewrite <- Z.lxor_lor, <- Z.add_nocarry_lxor; [reflexivity | |]; apply Z.bits_inj'; intros i Hi; rewrite Z.land_spec, Z.bits_0; (destruct (Z.eq_dec i 0) as [->|Ni]; [rewrite Z.bit0_odd, Oy; reflexivity | rewrite Z.bits_above_log2 with (a := 1) by (cbn; lia); apply andb_false_r]). }
  split; intros E.
  - apply (G 16 12 4093); try assumption; try lia; try reflexivity; [cbn; lia | small_prime].
  - apply (G 32 24 16777213); try assumption; try lia; try reflexivity; [cbn; lia | small_prime].
Qed.
(** 226-229, 264-269: the safe primes *)
Theorem C67_rand_safe_prime : forall f pf lf fuel w dr p dr' d, w = 8 \/ w = 32 -> Z.of_nat lf <= 2 ^ 31 ->
  gen_safe_prime_prim f pf lf fuel w w dr = Ret (p, dr') \/ (gen_safe_prime_exact_prim f pf lf fuel w w dr = Ret (p, dr')) -> is_safe_prime f pf (U w) no_probs lf p d = Ret (Yes, d).
Proof.
  intros f pf lf fuel w dr p dr' d Hw Hlf [E|E].
  - apply (C40_gen_safe_prime f pf lf fuel w w dr p dr' d); try assumption; cbn; lia.
  - apply (C40_gen_safe_prime_exact f pf lf fuel w w dr p dr' d) in E; try assumption; [apply E | cbn; lia | lia | lia].
Qed.

Print Assumptions C66_pb_factors_test.
Print Assumptions C66_exact_root_small.
Print Assumptions C67_root_agreement.
Print Assumptions C67_root_agreement_refuted.
Print Assumptions C67_perfect_powers.
Print Assumptions C67_non_perfect_refuted.
Print Assumptions C67_root_agreement_big.
Print Assumptions C67_root_agreement_bigint.
Print Assumptions C66_prp_test.
Print Assumptions C66_sprp_test.
Print Assumptions C67_lucas_listed.
Print Assumptions C67_lucas_listed_refuted.
Print Assumptions C67_lucas_naive.
Print Assumptions C67_lucas_naive_refuted.
Print Assumptions C67_rand_prime.
Print Assumptions C67_bit_limit_refuted.
Print Assumptions C67_bit_limit.
Print Assumptions C67_rand_safe_prime.
