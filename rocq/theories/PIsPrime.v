(** * Proofs about is_prime64: tables, wheel, hashed witnesses. *)
From Coq Require Import ZArith Znumtheory List Lia Bool Sorted.
From Verif Require Import Base Tables Spec Ext NT PBase PTables MInteger Ops POps MPrimality MTraits MSieve MIsPrime PSprp PropSprp.
Import ListNotations.
Local Open Scope Z_scope.

(** ** Strong test on SmallMint *)
Lemma mint_sprp_law : forall pf w n a, valid_ity (U w) -> 3 <= n < 2 ^ w -> Z.odd n = true -> 0 <= a < 2 ^ w ->
  mint_sprp pf w n a = Ret (z_sprp n a).
Proof.
  intros pf w n a Hw Hn Ho Ha. unfold mint_sprp.
  assert (Hn' : in_range (U w) n) by (cbn [in_range]; lia).
  assert (Ha' : in_range (U w) a) by (cbn [in_range]; lia).
  apply (is_sprp_law _ _ _ _ _ (mops_lawful pf (U w)) (valid_one _ Hw)); try (split; auto); lia.
Qed.

(** ** Hashes index their tables *)
Lemma hash32_range : forall x, 0 <= hash32 x < 256.
Proof.
  intros x. unfold hash32. cbv zeta. change 255 with (Z.ones 8). rewrite Z.land_ones by lia. apply Z.mod_pos_bound. reflexivity.
Qed.
Lemma hash64_range : forall x, 0 <= hash64 x < 16384.
Proof.
  intros x. unfold hash64. cbv zeta. change 16383 with (Z.ones 14). rewrite Z.land_ones by lia. apply Z.mod_pos_bound. reflexivity.
Qed.
Definition base32 (n : Z) : Z := nth (Z.to_nat (hash32 n)) MILLER_RABIN_BASE32 0.
Definition base64 (n : Z) : Z := nth (Z.to_nat (hash64 n)) MILLER_RABIN_BASE64 0.
Lemma base32_len : Z.of_nat (length MILLER_RABIN_BASE32) = 256.
Proof. vm_compute; reflexivity. Qed.
Lemma base64_len : Z.of_nat (length MILLER_RABIN_BASE64) = 16384.
Proof. vm_compute; reflexivity. Qed.
Lemma base32_index : forall n, index MILLER_RABIN_BASE32 (hash32 n) = Ret (base32 n).
Proof. intros n. apply index_ok. rewrite base32_len. apply hash32_range. Qed.
Lemma base64_index : forall n, index MILLER_RABIN_BASE64 (hash64 n) = Ret (base64 n).
Proof. intros n. apply index_ok. rewrite base64_len. apply hash64_range. Qed.
Lemma base32_in : forall n, In (base32 n) MILLER_RABIN_BASE32.
Proof. intros n. apply nth_In. pose proof base32_len. pose proof (hash32_range n). lia. Qed.
Lemma base64_in : forall n, In (base64 n) MILLER_RABIN_BASE64.
Proof. intros n. apply nth_In. pose proof base64_len. pose proof (hash64_range n). lia. Qed.

(** a base of the 32-bit table whose multiple-free part could be a prime of the tested range
    is never selected for that prime *)
Definition base32_check (b : Z) : bool :=
  (0 <? b) && (b <? 65536) &&
  forallb (fun k => let p := b / k in
     negb (b mod k =? 0) || (p <? 8167) || negb (fast_primeb p) || negb (base32 p =? b)) [1;2;3;4;5;6;7;8].
Lemma base32_table : forallb base32_check MILLER_RABIN_BASE32 = true.
Proof. vm_compute; reflexivity. Qed.
Lemma base64_table : forallb (fun b => (0 <? Z.land b 4095) && (0 <? Z.shiftr b 12) && (Z.land b 4095 <? 4096) && (Z.shiftr b 12 <? 4096)) MILLER_RABIN_BASE64 = true.
Proof. vm_compute; reflexivity. Qed.

Lemma base32_bound : forall n, 0 < base32 n < 65536.
Proof.
  intros n. pose proof (proj1 (forallb_forall _ _) base32_table _ (base32_in n)) as H.
  unfold base32_check in H. rewrite !andb_true_iff, !Z.ltb_lt in H. lia.
Qed.
Lemma base32_prime : forall p, prime p -> 8167 <= p -> ~ (p | base32 p).
Proof.
  intros p Hp Hge [k Hk]. pose proof (base32_bound p) as Hb.
  pose proof (proj1 (forallb_forall _ _) base32_table _ (base32_in p)) as H.
  unfold base32_check in H. rewrite !andb_true_iff in H. destruct H as [_ H]. rewrite forallb_forall in H.
  assert (Hk8 : 1 <= k <= 8) by nia.
  assert (Hin : In k [1;2;3;4;5;6;7;8]) by (cbn [In]; lia).
  specialize (H k Hin). cbv zeta in H. rewrite Hk in H at 1.
  replace (base32 p / k) with p in H by (rewrite Hk, Z.mul_comm, Z.div_mul; lia).
  rewrite (Z.mul_comm k p), Z.mod_mul, Z.eqb_refl in H by lia. cbn [negb orb] in H.
  replace (p <? 8167) with false in H by (symmetry; apply Z.ltb_ge; lia).
  rewrite (proj2 (fast_primeb_spec p) Hp) in H. rewrite Z.eqb_refl in H. discriminate.
Qed.
Lemma base64_bound : forall n, 0 < Z.land (base64 n) 4095 < 4096 /\ 0 < Z.shiftr (base64 n) 12 < 4096.
Proof.
  intros n. pose proof (proj1 (forallb_forall _ _) base64_table _ (base64_in n)) as H.
  cbv beta in H. rewrite !andb_true_iff, !Z.ltb_lt in H. lia.
Qed.

(** ** Wheel *)
Definition wheel_ok (f : feature) : bool :=
  forallb (fun '(p, (a, b)) => Bool.eqb (b <? a) (negb (Z.gcd p (WHEEL_SIZE f) =? 1)))
    (combine (range_from (Z.to_nat (WHEEL_SIZE f) - 1) 1 1) (combine (WHEEL_NEXT f) (tl (WHEEL_NEXT f)))).
Lemma wheel_ok_true : forall f, wheel_ok f = true /\ Z.of_nat (length (WHEEL_NEXT f)) = WHEEL_SIZE f.
Proof. intros [|]; split; vm_compute; reflexivity. Qed.
Lemma wheel_size_pos : forall f, 30 <= WHEEL_SIZE f <= 2310.
Proof. intros [|]; (split; [apply Z.leb_le | apply Z.leb_le]; reflexivity). Qed.

Lemma wheel_reject_law : forall f n, 0 <= n ->
  wheel_reject f n = Ret (negb (Z.gcd n (WHEEL_SIZE f) =? 1)).
Proof.
  intros f n Hn. unfold wheel_reject. cbv zeta. pose proof (wheel_size_pos f) as Hs.
  pose proof (Z.mod_pos_bound n (WHEEL_SIZE f) ltac:(lia)) as Hm.
  replace (Z.gcd n (WHEEL_SIZE f)) with (Z.gcd (n mod WHEEL_SIZE f) (WHEEL_SIZE f)) by (rewrite Z.gcd_mod by lia; apply Z.gcd_comm).
  set (p := n mod WHEEL_SIZE f) in *.
  destruct (Z.eqb_spec p 0) as [E|E].
  - rewrite E, Z.gcd_0_l, Z.abs_eq by lia. replace (WHEEL_SIZE f =? 1) with false by (symmetry; apply Z.eqb_neq; lia). reflexivity.
  - destruct (wheel_ok_true f) as [Hw Hl].
    rewrite (index_ok _ _ p 0), (index_ok _ _ (p - 1) 0) by lia. cbn [bind]. f_equal.
    unfold wheel_ok in Hw. rewrite forallb_forall in Hw.
    specialize (Hw (p, (nth (Z.to_nat (p - 1)) (WHEEL_NEXT f) 0, nth (Z.to_nat p) (WHEEL_NEXT f) 0))).
    cbv beta iota in Hw. apply Bool.eqb_prop, Hw.
    set (L := WHEEL_NEXT f) in *.
    assert (Ht : length (tl L) = Z.to_nat (WHEEL_SIZE f - 1)) by (destruct L; cbn [tl length] in *; lia).
    replace (nth (Z.to_nat p) L 0) with (nth (Z.to_nat (p - 1)) (tl L) 0).
    2:{ replace (Z.to_nat p) with (S (Z.to_nat (p - 1))) by lia. destruct L; [cbn [length] in Hl; lia | reflexivity]. }
    assert (Hr : nth (Z.to_nat (p - 1)) (range_from (Z.to_nat (WHEEL_SIZE f) - 1) 1 1) 0 = p).
    { assert (G : forall n i a, (i < n)%nat -> nth i (range_from n a 1) 0 = a + Z.of_nat i).
      { induction n0 as [|n0 IH]; intros i a Hi; [lia|]. destruct i as [|i]; cbn [range_from nth]; [lia|]. rewrite IH; lia. }
      rewrite G; lia. }
    rewrite <- Hr at 1.
    assert (Hc : length (firstn (Z.to_nat (WHEEL_SIZE f) - 1) L) = length (tl L)) by (rewrite firstn_length_le; lia).
    assert (Hn1 : nth (Z.to_nat (p - 1)) L 0 = nth (Z.to_nat (p - 1)) (firstn (Z.to_nat (WHEEL_SIZE f) - 1) L) 0).
    { rewrite <- (firstn_skipn (Z.to_nat (WHEEL_SIZE f) - 1) L) at 1. rewrite app_nth1 by lia. reflexivity. }
    assert (Hcomb : forall (A B : list Z) C, length A = length B -> combine (A ++ C) B = combine A B).
    { induction A as [|a A IH]; intros B C HL; destruct B as [|b B]; cbn [length] in HL; try lia.
      - destruct C; reflexivity.
      - cbn [app combine]. f_equal. apply IH. lia. }
    assert (Hc2 : combine L (tl L) = combine (firstn (Z.to_nat (WHEEL_SIZE f) - 1) L) (tl L)).
    { rewrite <- (firstn_skipn (Z.to_nat (WHEEL_SIZE f) - 1) L) at 1. apply Hcomb. exact Hc. }
    rewrite Hc2, Hn1. rewrite <- combine_nth by exact Hc. rewrite <- combine_nth.
    + apply nth_In. rewrite !combine_length, range_from_length, Hc. lia.
    + rewrite range_from_length, combine_length, Hc. lia.
Qed.

(** ** is_prime64 *)

Lemma allM_law : forall A (test : A -> res bool) g l, (forall x, In x l -> test x = Ret (g x)) -> allM test l = Ret (forallb g l).
Proof.
  intros A test g l. induction l as [|x l IH]; intros H; cbn [allM forallb]; [reflexivity|].
  rewrite H by (left; reflexivity). cbn [bind]. destruct (g x); cbn [andb]; [apply IH; intros; apply H; right; assumption | reflexivity].
Qed.

(** bases tried for an odd [n] beyond the tables *)
Definition miller_bases (f : feature) (n : Z) : list Z :=
  match f with
  | SmallTable => if n <? 2 ^ 32 then WITNESS32 else WITNESS64
  | BigTable => if n <? 2 ^ 32 then [base32 n] else [2; Z.land (base64 n) 4095; Z.shiftr (base64 n) 12]
  end.
Lemma miller_bases_range : forall f n a, In a (miller_bases f n) -> 0 < a < 2 ^ 32.
Proof.
  intros f n a. unfold miller_bases. pose proof (base32_bound n). pose proof (base64_bound n).
  destruct f, (n <? 2 ^ 32); cbn [WITNESS32 WITNESS64 In]; lia.
Qed.
Lemma miller64_law : forall f pf n, 3 <= n < 2 ^ 64 -> Z.odd n = true ->
  is_prime64_miller f pf n = Ret (forallb (z_sprp n) (miller_bases f n)).
Proof.
  intros f pf n Hn Ho. pose proof (base32_bound n) as B32. pose proof (base64_bound n) as B64.
  assert (V32 : valid_ity (U 32)) by (cbn; tauto). assert (V64 : valid_ity (U 64)) by (cbn; tauto).
  unfold is_prime64_miller, miller_bases. destruct f.
  - destruct (Z.ltb_spec n (2 ^ 32)) as [H|H].
    + unfold is_prime32_miller. rewrite base32_index. cbn [bind forallb]. rewrite andb_true_r. apply mint_sprp_law; auto; lia.
    + rewrite (mint_sprp_law pf 64 n 2) by (auto; lia). cbn [bind forallb]. destruct (z_sprp n 2); cbn [negb andb]; [|reflexivity].
      rewrite base64_index. cbn [bind]. rewrite mint_sprp_law by (auto; lia). cbn [bind].
      destruct (z_sprp n (Z.land (base64 n) 4095)); cbn [andb]; [|reflexivity].
      rewrite andb_true_r. apply mint_sprp_law; auto; lia.
  - destruct (Z.ltb_spec n (2 ^ 32)) as [H|H]; apply allM_law; intros x Hx; apply mint_sprp_law; auto; try lia;
      cbn [WITNESS32 WITNESS64 In] in Hx; lia.
Qed.

Lemma land1_odd : forall n, Z.land n 1 =? 0 = Z.even n.
Proof.
  intros n. change 1 with (Z.ones 1) at 1. rewrite Z.land_ones by lia. change (2 ^ 1) with 2. rewrite Zmod_even. destruct (Z.even n); reflexivity.
Qed.
Definition tableb (f : feature) (n : Z) : bool := match bsearch (SMALL_PRIMES f) n with Found _ => true | NotFound _ => false end.
Lemma tableb_spec : forall f n, n < SMALL_PRIMES_NEXT f -> (tableb f n = true <-> prime n).
Proof.
  intros f n Hn. destruct (small_primes_list f) as [Hs Hl]. unfold tableb. split.
  - destruct (bsearch (SMALL_PRIMES f) n) as [k|k] eqn:E; [intros _ | discriminate].
    apply bsearch_found in E; [|exact Hs]. apply Hl, E.
  - intros Hp. destruct (proj2 (bsearch_is_found (SMALL_PRIMES f) n Hs)) as [k ->]; [apply Hl; auto | reflexivity].
Qed.
Lemma small_next : forall f, SMALL_PRIMES_NEXT f = match f with BigTable => 8167 | SmallTable => 257 end.
Proof. intros [|]; reflexivity. Qed.

(** What is_prime64 computes, as a plain boolean. *)
Definition z_is_prime64 (f : feature) (n : Z) : bool :=
  if n <? 2 then false
  else if Z.even n then n =? 2
  else if in_small_range f n then tableb f n
  else (Z.gcd n (WHEEL_SIZE f) =? 1) && forallb (z_sprp n) (miller_bases f n).
Lemma is_prime64_law : forall f pf n, n < 2 ^ 64 -> is_prime64 f pf n = Ret (z_is_prime64 f n).
Proof.
  intros f pf n Hn. unfold is_prime64, z_is_prime64. rewrite land1_odd.
  destruct (Z.ltb_spec n 2) as [H2|H2]; [reflexivity|].
  destruct (Z.even n) eqn:Ev; [reflexivity|].
  assert (Ho : Z.odd n = true) by (rewrite <- Z.negb_even, Ev; reflexivity).
  destruct (in_small_range f n); [reflexivity|].
  rewrite wheel_reject_law by lia. cbn [bind].
  destruct (Z.gcd n (WHEEL_SIZE f) =? 1); cbn [negb andb]; [|reflexivity].
  apply miller64_law; [|exact Ho]. split; [|exact Hn]. destruct (Z.eq_dec n 2) as [->|]; [discriminate Ho | lia].
Qed.

Lemma even_prime : forall p, prime p -> Z.even p = true -> p = 2.
Proof.
  intros p Hp E. symmetry. apply prime_divides_prime; [apply prime_2 | exact Hp|].
  apply Z.even_spec in E. destruct E as [k ->]. exists k. ring.
Qed.
Lemma wheel_prime : forall f p, prime p -> SMALL_PRIMES_NEXT f <= p + 1 -> Z.gcd p (WHEEL_SIZE f) = 1.
Proof.
  intros f p Hp H. apply Zgcd_1_rel_prime. apply prime_rel_prime; [exact Hp|]. intros C.
  assert (G : forall q, prime q -> (q | p) -> q <= 11 -> False).
  { intros q Hq Hd Hle. apply prime_divides_prime in Hd; auto. subst. rewrite small_next in H. destruct f; lia. }
  assert (E : WHEEL_SIZE f = 30 \/ WHEEL_SIZE f = 2310) by (destruct f; [right | left]; reflexivity).
  assert (D : forall q, prime q -> (p | q) -> p = q) by (intros; apply prime_divides_prime; auto).
  assert (P2 : prime 2) by apply prime_2.
  assert (P3 : prime 3) by apply prime_3.
  assert (P5 : prime 5) by (apply fast_primeb_spec; reflexivity).
  assert (P7 : prime 7) by (apply fast_primeb_spec; reflexivity).
  assert (P11 : prime 11) by (apply fast_primeb_spec; reflexivity).
  assert (K : (p | 2 * (3 * (5 * (7 * 11))))).
  { destruct E as [E|E]; rewrite E in C; [|exact C]. eapply Z.divide_trans; [exact C|]. exists 77. reflexivity. }
  assert (p <= 11).
  { apply prime_div_mul in K; [|exact Hp]. destruct K as [K|K]; [apply D in K; auto; lia|].
    apply prime_div_mul in K; [|exact Hp]. destruct K as [K|K]; [apply D in K; auto; lia|].
    apply prime_div_mul in K; [|exact Hp]. destruct K as [K|K]; [apply D in K; auto; lia|].
    apply prime_div_mul in K; [|exact Hp]. destruct K as [K|K]; [apply D in K; auto; lia|].
    apply D in K; auto; lia. }
  apply (G p Hp); [apply Z.divide_refl | assumption].
Qed.
Lemma miller_bases_coprime : forall f p a, prime p -> SMALL_PRIMES_NEXT f <= p + 1 -> In a (miller_bases f p) -> ~ (p | a).
Proof.
  intros f p a Hp Hge Hin C. pose proof (miller_bases_range f p a Hin) as Hr.
  assert (Hle : p <= a) by (apply Z.divide_pos_le; [lia | exact C]).
  unfold miller_bases in Hin. rewrite small_next in Hge. destruct f.
  - destruct (Z.ltb_spec p (2 ^ 32)) as [H|H]; [|lia]. destruct Hin as [<-|[]].
    apply (base32_prime p Hp); [|exact C]. destruct (Z.eq_dec p 8166) as [->|]; [|lia].
    apply fast_primeb_spec in Hp. vm_compute in Hp. discriminate.
  - destruct (Z.ltb_spec p (2 ^ 32)) as [H|H]; [|lia]. cbn [WITNESS32 In] in Hin. lia.
Qed.
Lemma z_is_prime64_complete : forall f n, prime n -> z_is_prime64 f n = true.
Proof.
  intros f p Hp. pose proof (prime_ge2 p Hp). unfold z_is_prime64.
  replace (p <? 2) with false by (symmetry; apply Z.ltb_ge; lia).
  destruct (Z.even p) eqn:Ev; [rewrite (even_prime p Hp Ev); reflexivity|].
  assert (Ho : Z.odd p = true) by (rewrite <- Z.negb_even, Ev; reflexivity).
  destruct (in_small_range f p) eqn:Es.
  - apply tableb_spec; [|exact Hp]. unfold in_small_range in Es. rewrite small_next in *. destruct f; apply Z.ltb_lt in Es; lia.
  - assert (Hge : SMALL_PRIMES_NEXT f <= p + 1).
    { unfold in_small_range in Es. rewrite small_next in *. destruct f; apply Z.ltb_ge in Es; lia. }
    rewrite (wheel_prime f p Hp Hge). cbn [Z.eqb Pos.eqb andb]. apply forallb_forall. intros a Ha.
    apply z_sprp_spec; [rewrite small_next in Hge; destruct f; lia | exact Ho|].
    apply prime_strong_prp; [exact Hp | exact Ho |]. apply (miller_bases_coprime f); assumption.
Qed.
Lemma z_is_prime64_sound_partial : forall f n, z_is_prime64 f n = true ->
  if n <? SMALL_PRIMES_NEXT f - 1 then prime n
  else Z.odd n = true /\ (forall p, prime p -> (p | WHEEL_SIZE f) -> ~ (p | n)) /\ (forall a, In a (miller_bases f n) -> strong_prp n a).
Proof.
  intros f n. unfold z_is_prime64. rewrite small_next. unfold in_small_range. rewrite small_next.
  destruct (Z.ltb_spec n 2) as [H2|H2]; [discriminate|].
  destruct (Z.even n) eqn:Ev.
  - intros E. apply Z.eqb_eq in E. subst. destruct f; exact prime_2.
  - assert (Ho : Z.odd n = true) by (rewrite <- Z.negb_even, Ev; reflexivity).
    assert (K : (Z.gcd n (WHEEL_SIZE f) =? 1) && forallb (z_sprp n) (miller_bases f n) = true ->
       Z.odd n = true /\ (forall p, prime p -> (p | WHEEL_SIZE f) -> ~ (p | n)) /\ (forall a, In a (miller_bases f n) -> strong_prp n a)).
    { intros H. apply andb_true_iff in H. destruct H as [Hg Hf]. apply Z.eqb_eq in Hg. split; [exact Ho|]. split.
      - intros p Hp Hd Hn. assert (p | 1) by (rewrite <- Hg; apply Z.gcd_greatest; assumption).
        apply Z.divide_1_r_nonneg in H; pose proof (prime_ge2 p Hp); lia.
      - intros a Ha. rewrite forallb_forall in Hf. apply z_sprp_spec; [|exact Ho | apply Hf, Ha].
        destruct (Z.eq_dec n 2) as [->|]; [discriminate Ho | lia]. }
    destruct f.
    + destruct (Z.ltb_spec n 8167) as [H|H]; intros E.
      * assert (P : prime n) by (apply (tableb_spec BigTable); [rewrite small_next; lia | exact E]).
        destruct (Z.ltb_spec n (8167 - 1)) as [H'|H']; [exact P|]. exfalso.
        assert (n = 8166) as -> by lia. discriminate Ev.
      * destruct (Z.ltb_spec n (8167 - 1)); [lia | apply K, E].
    + destruct (Z.ltb_spec n 256) as [H|H]; intros E.
      * assert (P : prime n) by (apply (tableb_spec SmallTable); [rewrite small_next; lia | exact E]).
        destruct (Z.ltb_spec n (257 - 1)) as [H'|H']; [exact P | lia].
      * destruct (Z.ltb_spec n (257 - 1)); [lia | apply K, E].
Qed.
