(** * C10-C15, C48, C49: is_prime64 and is_prime. *)
From Coq Require Import ZArith Znumtheory List Lia Bool Sorted.
From Verif Require Import Base Tables Spec Ext NT NTProth PBase PTables MInteger Ops POps MPrimality MTraits MSieve MIsPrime PSprp PropSprp PIsPrime PIsPrime2 PLucas PLucas2 PLucas3 PropLucas.
Import ListNotations.
Local Open Scope Z_scope.

(** C10: is_prime64 never rejects a prime, and always returns. *)
Theorem C10_is_prime64_accepts_primes : forall f pf n, prime n -> n < 2 ^ 64 -> is_prime64 f pf n = Ret true.
Proof. intros f pf n Hp Hn. rewrite is_prime64_law by exact Hn. rewrite z_is_prime64_complete by exact Hp. reflexivity. Qed.
Theorem C10_is_prime64_total : forall f pf n, 0 <= n < 2 ^ 64 -> exists b, is_prime64 f pf n = Ret b /\ (b = false -> ~ prime n).
Proof.
  intros f pf n Hn. exists (z_is_prime64 f n). split; [apply is_prime64_law; lia|].
  intros E Hp. rewrite z_is_prime64_complete in E by exact Hp. discriminate E.
Qed.
Example C10_case : is_prime64 BigTable Debug (2 ^ 61 - 1) = Ret true /\ is_prime64 SmallTable Debug 18446744073709551557 = Ret true /\ is_prime64 BigTable Release (2 ^ 32 + 1) = Ret false.
Proof. vmc. Qed.

(** C11: what acceptance means. Below the end of the prime table (8166 / 256) the number is prime. Above,
    it is odd, has no common factor with the wheel, and passes the strong test to the bases used:
    {2, 7, 61} or a hashed base below 2^32; {2, 325, 9375, 28178, 450775, 9780504, 1795265022} or
    2 and two hashed bases above. That no composite below 2^64 does so is not proved here. *)
Theorem C11_is_prime64_sound_partial : forall f pf n, 0 <= n < 2 ^ 64 -> is_prime64 f pf n = Ret true ->
  (n < SMALL_PRIMES_NEXT f - 1 /\ prime n) \/
  (SMALL_PRIMES_NEXT f - 1 <= n /\ (forall p, prime p -> (p | n) -> (p | WHEEL_SIZE f) -> False) /\
   exists bases, (forall a, In a bases -> strong_prp n a /\ 0 < a < 2 ^ 32) /\
     match f with
     | SmallTable => bases = if n <? 2 ^ 32 then [2; 7; 61] else [2; 325; 9375; 28178; 450775; 9780504; 1795265022]
     | BigTable => if n <? 2 ^ 32 then exists b, In b MILLER_RABIN_BASE32 /\ bases = [b] else exists b1 b2, bases = [2; b1; b2]
     end).
Proof.
  intros f pf n Hn E. rewrite is_prime64_law in E by lia. injection E as E. apply z_is_prime64_sound_partial in E.
  destruct (Z.ltb_spec n (SMALL_PRIMES_NEXT f - 1)) as [H|H]; [left; auto|]. right. split; [exact H|].
  destruct E as [Ho [Hw Hb]]. split; [intros p Hp H1 H2; apply (Hw p Hp H2 H1)|]. exists (miller_bases f n). split.
  - intros a Ha. split; [apply Hb, Ha | eapply miller_bases_range; exact Ha].
  - unfold miller_bases. destruct f, (n <? 2 ^ 32); try reflexivity.
    + exists (base32 n). split; [apply base32_in | reflexivity].
    + eauto.
Qed.
Theorem C11_is_prime64_table_exact : forall f pf n, 0 <= n < 256 -> is_prime64 f pf n = Ret (primeb n).
Proof.
  intros f pf n Hn. rewrite is_prime64_law by lia. f_equal. apply eq_true_iff_eq. rewrite primeb_spec. split.
  - intros E. apply z_is_prime64_sound_partial in E. destruct (Z.ltb_spec n (SMALL_PRIMES_NEXT f - 1)) as [H|H]; [exact E|].
    rewrite small_next in H. destruct f; lia.
  - apply z_is_prime64_complete.
Qed.
Example C11_case : is_prime64 BigTable Debug 3215031751 = Ret false /\ is_prime64 SmallTable Debug 3215031751 = Ret false /\ is_prime64 BigTable Debug 1000003 = Ret true.
Proof. vmc. Qed.

(** C12: up to 64 bits is_prime is definite, independent of config, buffer, randomness and fuel. *)
Theorem C12_is_prime_definite : forall f pf t n, valid_ity t -> in_range t n -> n < 2 ^ 64 ->
  exists b, is_prime64 f pf n = Ret b /\
    (forall A (PR : probs A) fuel buf config dr, is_prime f pf (uops f pf t) PR fuel buf n config dr = Ret (if b then Yes else No, dr)) /\
    (Z.odd n = true -> forall A (PR : probs A) fuel buf config dr, is_prime f pf (mops pf t) PR fuel buf (ML n) config dr = Ret (if b then Yes else No, dr)).
Proof.
  intros f pf t n Ht Hn Hs. exists (z_is_prime64 f n). split; [apply is_prime64_law; exact Hs|]. split.
  - intros A PR fuel buf config dr. apply (is_prime_small f pf _ PR t _ _ _ (uops_lawful f pf t) Ht); [split; auto | exact Hs].
  - intros Ho A PR fuel buf config dr. apply (is_prime_small f pf _ PR t _ _ _ (mops_lawful pf t) Ht); [split; auto | exact Hs].
Qed.
Theorem C12_even : forall f pf t n A (PR : probs A) fuel buf config dr, valid_ity t -> in_range t n -> Z.even n = true -> n <> 2 ->
  is_prime f pf (uops f pf t) PR fuel buf n config dr = Ret (No, dr).
Proof.
  intros f pf t n A PR fuel buf config dr Ht Hn Ev H2.
  rewrite (is_prime_even f pf _ PR t _ _ _ (uops_lawful f pf t) Ht fuel buf n n config dr) by (assumption || (split; auto)).
  apply Z.eqb_neq in H2. rewrite H2. reflexivity.
Qed.
Example C12_case : nt_is_prime BigTable Debug (uops BigTable Debug u128) no_probs 0 1000003 None [] = Ret (Yes, [])
  /\ nt_is_prime BigTable Debug (uops BigTable Debug u128) no_probs 0 (2 ^ 64) None [] = Ret (No, []).
Proof. vmc. Qed.

(** C13: a prime is never declared composite, unless a random witness is a multiple of 2^64 (drawn as 0). *)
Theorem C13_is_prime_never_rejects : forall f pf t n A (PR : probs A) fuel buf config dr, valid_ity t -> in_range t n -> prime n ->
  (forall w, In w buf -> 0 < w < 2 ^ 64) -> (forall x, In x dr -> x mod 2 ^ 64 <> 0) ->
  Z.of_nat fuel <= 2 ^ 31 -> Z.log2 (n + 1) < 2 ^ 64 ->
  match is_prime f pf (uops f pf t) PR fuel buf n config dr with
  | Ret (r, _) => probably r = true
  | Panic => False
  | NoFuel => True
  end.
Proof.
  intros f pf t n A PR fuel buf config dr Ht Hn Hp Hbuf Hdr Hfuel Hlog.
  assert (HV : UV t n n) by (split; auto). pose proof (prime_ge2 n Hp) as H2.
  destruct (Z.lt_ge_cases n (2 ^ 64)) as [Hs|Hl].
  { rewrite (is_prime_small f pf _ PR t _ _ _ (uops_lawful f pf t) Ht fuel buf n n config dr HV Hs). rewrite z_is_prime64_complete by exact Hp. reflexivity. }
  assert (H3 : 3 <= n) by lia. pose proof (C21_odd n Hp H3) as Ho.
  rewrite (is_prime_large f pf _ PR t _ _ _ (uops_lawful f pf t) Ht fuel buf n n config dr HV ltac:(cbv beta; lia) Ho Hl) by (intros w Hw; apply Hbuf in Hw; lia).
  cbv zeta. set (c := the_config config).
  assert (Hws : forall ws dr', draw_witnesses c dr (fixed_witnesses c buf) = Ret (ws, dr') -> forallb (z_sprp n) ws = true).
  { intros ws dr' E. apply forallb_forall. intros w Hw.
    assert (Hw' : 0 < w < 2 ^ 64).
    { unfold draw_witnesses in E. destruct (0 <? sprp_random_trials c).
      - apply random_witnesses_spec in E. destruct E as [rnd [-> [_ [_ [Hr _]]]]]. apply in_app_or in Hw. destruct Hw as [Hw|Hw].
        + apply Hbuf, (fixed_in c), Hw.
        + apply Hr in Hw. destruct Hw as [_ [Hw [x [Hx Ex]]]]. specialize (Hdr x Hx). lia.
      - injection E as <- _. apply Hbuf, (fixed_in c), Hw. }
    apply z_sprp_spec; [lia | exact Ho|]. apply prime_strong_prp; [exact Hp | exact Ho|].
    intros C. apply Z.divide_pos_le in C; lia. }
  assert (Hnp : draw_witnesses c dr (fixed_witnesses c buf) <> Panic).
  { unfold draw_witnesses. destruct (0 <? sprp_random_trials c); [apply random_not_panic | discriminate]. }
  destruct (draw_witnesses c dr (fixed_witnesses c buf)) as [[ws dr']| |]; cbn [bind]; [| congruence | exact I].
  rewrite (Hws ws dr' eq_refl). cbn [negb].
  destruct (C21_never_rejects_a_prime f pf t fuel n Ht Hn Hp H3) as [_ [Hsl Hel]].
  specialize (Hsl ltac:(lia)). specialize (Hel Hfuel Hlog).
  destruct (slprp_test c); [destruct Hsl as [-> | ->]; cbn [bind negb]; [|exact I] | cbn [bind negb]];
    (destruct (eslprp_test c); [destruct Hel as [-> | ->]; cbn [bind negb]; [reflexivity|exact I] | cbn [bind negb]; reflexivity]).
Qed.
(** ... in particular for every configuration without random trials. *)
Theorem C13_no_random_trials : forall f pf t n A (PR : probs A) fuel c dr r dr', valid_ity t -> in_range t n -> prime n ->
  sprp_random_trials c <= 0 -> Z.of_nat fuel <= 2 ^ 31 -> Z.log2 (n + 1) < 2 ^ 64 ->
  nt_is_prime f pf (uops f pf t) PR fuel n (Some c) dr = Ret (r, dr') -> probably r = true /\ dr' = dr.
Proof.
  intros f pf t n A PR fuel c dr r dr' Ht Hn Hp Hc Hf Hlog E.
  assert (HV : UV t n n) by (split; auto). pose proof (prime_ge2 n Hp) as H2. unfold nt_is_prime in E.
  assert (Edr : forall d, nt_is_prime f pf (uops f pf t) PR fuel n (Some c) d = match nt_is_prime f pf (uops f pf t) PR fuel n (Some c) [] with Ret (x, _) => Ret (x, d) | Panic => Panic | NoFuel => NoFuel end).
  { intros d. unfold nt_is_prime. destruct (Z.lt_ge_cases n (2 ^ 64)) as [Hs|Hl].
    - rewrite !(is_prime_small f pf _ PR t _ _ _ (uops_lawful f pf t) Ht fuel _ n n _ _ HV Hs). reflexivity.
    - pose proof (C21_odd n Hp ltac:(lia)) as Ho. assert (Hb : forall w, In w (buf_iter (buf_new f)) -> 0 <= w < 2 ^ 64) by (intros w Hw; apply new_buf_range in Hw; lia).
      rewrite !(is_prime_large f pf _ PR t _ _ _ (uops_lawful f pf t) Ht fuel _ n n _ _ HV ltac:(cbv beta; lia) Ho Hl Hb). cbv zeta. cbn [the_config].
      unfold draw_witnesses. replace (0 <? sprp_random_trials c) with false by (symmetry; apply Z.ltb_ge; lia). cbn [bind].
      destruct (forallb _ _); cbn [negb]; [|reflexivity].
      destruct (if slprp_test c then _ else _) as [[|]| |]; cbn [bind negb]; try reflexivity.
      destruct (if eslprp_test c then _ else _) as [[|]| |]; reflexivity. }
  assert (G := C13_is_prime_never_rejects f pf t n A PR fuel (buf_iter (buf_new f)) (Some c) [] Ht Hn Hp (new_buf_range f) ltac:(intros x []) Hf Hlog).
  fold (nt_is_prime f pf (uops f pf t) PR fuel n (Some c) dr) in E. rewrite Edr in E. fold (nt_is_prime f pf (uops f pf t) PR fuel n (Some c) []) in G.
  destruct (nt_is_prime f pf (uops f pf t) PR fuel n (Some c) []) as [[x d]| |]; try discriminate E. injection E as <- <-. auto.
Qed.
(** The condition on the draws is needed: with default settings the random witness 0 rejects the
    prime 16777251 * 2^40 + 1. *)
Theorem C13_zero_witness_refuted : forall f pf, prime 18446782556616523777 /\
  nt_is_prime f pf (uops f pf u128) no_probs 0 18446782556616523777 None [0; 5; 7] = Ret (No, []) /\
  nt_is_prime f pf (uops f pf u128) no_probs 0 18446782556616523777 None [3; 5; 7; 11] = Ret (Probable tt, []).
Proof. intros f pf. split; [exact prime_65|]. destruct f, pf; vmc. Qed.

(** C14: beyond 64 bits the answer is never Yes; it is No exactly when the number is even or fails one of
    the configured tests. The bases are the first [sprp_trials] primes of the buffer and
    [sprp_random_trials] pairwise distinct random ones different from these. *)
Theorem C14_is_prime_large : forall f pf t n A (PR : probs A) fuel buf config dr r dr', valid_ity t -> in_range t n -> 2 ^ 64 <= n ->
  (forall w, In w buf -> 0 <= w < 2 ^ 64) ->
  is_prime f pf (uops f pf t) PR fuel buf n config dr = Ret (r, dr') ->
  let c := match config with Some c => c | None => {| sprp_trials := 2; sprp_random_trials := 3; slprp_test := false; eslprp_test := false |} end in
  r <> Yes /\
  (Z.odd n = true -> exists rnd,
     Z.of_nat (length rnd) = Z.max 0 (sprp_random_trials c) /\ NoDup rnd /\
     (forall w, In w rnd -> ~ In w (firstn (Z.to_nat (sprp_trials c)) buf) /\ exists x, In x dr /\ w = x mod 2 ^ 64) /\
     (r = No <-> (exists w, In w (firstn (Z.to_nat (sprp_trials c)) buf ++ rnd) /\ ~ strong_prp n w) \/
                (slprp_test c = true /\ is_slprp pf (uops f pf t) fuel n None None = Ret false) \/
                (eslprp_test c = true /\ is_eslprp pf (uops f pf t) fuel n None = Ret false))).
Proof.
  intros f pf t n A PR fuel buf config dr r dr' Ht Hn Hl Hbuf E c.
  assert (HV : UV t n n) by (split; auto).
  destruct (Z.odd n) eqn:Ho.
  2:{ assert (Ev : Z.even n = true) by (rewrite <- Z.negb_odd, Ho; reflexivity).
      rewrite (is_prime_even f pf _ PR t _ _ _ (uops_lawful f pf t) Ht fuel buf n n config dr HV Ev) in E.
      replace (n =? 2) with false in E by (symmetry; apply Z.eqb_neq; lia). injection E as <- <-. split; [discriminate | discriminate]. }
  rewrite (is_prime_large f pf _ PR t _ _ _ (uops_lawful f pf t) Ht fuel buf n n config dr HV ltac:(cbv beta; lia) Ho Hl Hbuf) in E. cbv zeta in E.
  change (the_config config) with c in E.
  assert (Efix : fixed_witnesses c buf = firstn (Z.to_nat (sprp_trials c)) buf).
  { unfold fixed_witnesses. destruct (Z.ltb_spec 0 (sprp_trials c)); [reflexivity|]. replace (Z.to_nat (sprp_trials c)) with O by lia. reflexivity. }
  rewrite Efix in E. apply bind_ret in E. destruct E as [[ws d] [Ew E]].
  assert (Hw : exists rnd, ws = firstn (Z.to_nat (sprp_trials c)) buf ++ rnd /\ Z.of_nat (length rnd) = Z.max 0 (sprp_random_trials c) /\ NoDup rnd /\
     (forall w, In w rnd -> ~ In w (firstn (Z.to_nat (sprp_trials c)) buf) /\ exists x, In x dr /\ w = x mod 2 ^ 64)).
  { unfold draw_witnesses in Ew. destruct (Z.ltb_spec 0 (sprp_random_trials c)) as [Hc|Hc].
    - apply random_witnesses_spec in Ew. destruct Ew as [rnd [-> [Hlen [Hnd [Hr _]]]]]. exists rnd. split; [reflexivity|]. split; [lia|]. split; [exact Hnd|].
      intros w Hin. apply Hr in Hin. tauto.
    - injection Ew as <- _. exists []. rewrite app_nil_r. split; [reflexivity|]. split; [cbn [length]; lia|]. split; [constructor | intros w []]. }
  destruct Hw as [rnd [-> [Hlen [Hnd Hr]]]].
  set (ws := firstn (Z.to_nat (sprp_trials c)) buf ++ rnd) in *.
  assert (H3 : 3 <= n) by lia.
  assert (Sp : forallb (z_sprp n) ws = false <-> exists w, In w ws /\ ~ strong_prp n w).
  { split.
    - intros F. assert (X : exists w, In w ws /\ z_sprp n w = false).
      { clear -F. induction ws as [|x l IH]; [discriminate F|]. cbn [forallb] in F. apply andb_false_iff in F. destruct F as [F|F].
        - exists x. split; [left; reflexivity | exact F].
        - destruct (IH F) as [w [H1 H2]]. exists w. split; [right; exact H1 | exact H2]. }
      destruct X as [w [H1 H2]]. exists w. split; [exact H1|]. intros C. apply z_sprp_spec in C; [congruence | exact H3 | exact Ho].
    - intros [w [H1 H2]]. apply not_true_iff_false. intros F. rewrite forallb_forall in F. apply H2, z_sprp_spec; auto. }
  assert (K : r <> Yes /\ (r = No <-> (exists w, In w ws /\ ~ strong_prp n w) \/
                (slprp_test c = true /\ is_slprp pf (uops f pf t) fuel n None None = Ret false) \/
                (eslprp_test c = true /\ is_eslprp pf (uops f pf t) fuel n None = Ret false))).
  { destruct (forallb (z_sprp n) ws) eqn:Ef; cbn [negb] in E.
    2:{ injection E as <- <-. split; [discriminate|]. split; [intros _; left; apply Sp; reflexivity | reflexivity]. }
    assert (NS : ~ exists w, In w ws /\ ~ strong_prp n w) by (rewrite <- Sp; discriminate).
    apply bind_ret in E. destruct E as [sl [Es E]].
    destruct sl; cbn [negb] in E.
    2:{ injection E as <- <-. split; [discriminate|]. split; [intros _; right; left | reflexivity].
        destruct (slprp_test c); [auto | discriminate Es]. }
    apply bind_ret in E. destruct E as [el [Ee E]]. destruct el; cbn [negb] in E; injection E as <- <-; (split; [discriminate|]).
    - split; [discriminate|]. intros [C|[[C1 C2]|[C1 C2]]]; [contradiction | rewrite C1 in Es; congruence | rewrite C1 in Ee; congruence].
    - split; [intros _; right; right | reflexivity]. destruct (eslprp_test c); [auto | discriminate Ee]. }
  destruct K as [K1 K2]. split; [exact K1|]. intros _. exists rnd. auto.
Qed.
Example C14_case : nt_is_prime BigTable Debug (uops BigTable Debug u128) no_probs 0 (2 ^ 64 + 1) None [3; 5; 7; 11] = Ret (No, []) /\
  nt_is_prime BigTable Debug (uops BigTable Debug u128) no_probs 0 (2 ^ 89 - 1) None [2; 3; 9; 9; 11; 13; 7; 8] = Ret (Probable tt, [7; 8]).
Proof. vmc. Qed.

(** C15: combining results. The payload arithmetic is arbitrary. *)
Theorem C15_and : forall A (mul : A -> A -> A) a b, probably (prim_and mul a b) = probably a && probably b.
Proof. intros A mul [| |p] [| |q]; reflexivity. Qed.
Theorem C15_or : forall A (cor : A -> A -> A) a b, probably (prim_or cor a b) = probably a || probably b.
Proof. intros A cor [| |p] [| |q]; reflexivity. Qed.
(** Only [No] is not a probable prime. *)
Theorem C15_probably : forall A (a : primality A), (probably a = false <-> a = No) /\ (probably a = true <-> a = Yes \/ exists p, a = Probable p).
Proof. intros A [| |p]; cbn; split; split; try discriminate; auto; try (intros [C|[q C]]; discriminate C). intros _. right. exists p. reflexivity. Qed.
Theorem C15_units : forall A (op : A -> A -> A) (a : primality A),
  prim_and op Yes a = a /\ prim_and op a Yes = a /\ prim_and op No a = No /\ prim_and op a No = No /\
  prim_or op No a = a /\ prim_or op a No = a /\ prim_or op Yes a = Yes /\ prim_or op a Yes = Yes.
Proof. intros A op [| |p]; repeat split. Qed.
Theorem C15_definite : forall A (op : A -> A -> A) (a b : primality A),
  (prim_and op a b = Yes <-> a = Yes /\ b = Yes) /\ (prim_or op a b = No <-> a = No /\ b = No) /\
  (prim_and op a b = No <-> a = No \/ b = No) /\ (prim_or op a b = Yes <-> a = Yes \/ b = Yes).
Proof. intros A op [| |p] [| |q]; cbn; intuition congruence. Qed.
Theorem C15_comm_assoc : forall A (op : A -> A -> A), (forall x y, op x y = op y x) -> (forall x y z, op (op x y) z = op x (op y z)) ->
  forall a b c : primality A, prim_and op a b = prim_and op b a /\ prim_or op a b = prim_or op b a /\
    prim_and op (prim_and op a b) c = prim_and op a (prim_and op b c) /\ prim_or op (prim_or op a b) c = prim_or op a (prim_or op b c).
Proof. intros A op Hc Ha [| |p] [| |q] [| |r]; cbn; repeat split; try (f_equal; auto); auto. Qed.
Example C15_case : prim_and Z.mul (Probable 3) (Probable 5) = Probable 15 /\ prim_or Z.mul (Probable 3) Yes = Yes.
Proof. split; reflexivity. Qed.

(** C48: table lookups. *)
Theorem C48_hash_in_table : forall n, (exists b, index MILLER_RABIN_BASE32 (hash32 n) = Ret b /\ 0 < b < 2 ^ 16) /\
  (exists b, index MILLER_RABIN_BASE64 (hash64 n) = Ret b /\ 0 < Z.land b 4095 < 2 ^ 12 /\ 0 < Z.shiftr b 12 < 2 ^ 12).
Proof.
  intros n. split; [exists (base32 n); split; [apply base32_index | apply base32_bound] | exists (base64 n); split; [apply base64_index | apply base64_bound]].
Qed.
Theorem C48_wheel_exact : forall f n, 0 <= n -> exists b, wheel_reject f n = Ret b /\
  (b = true <-> exists p, prime p /\ (p | n) /\ (p | match f with BigTable => 2 * 3 * 5 * 7 * 11 | SmallTable => 2 * 3 * 5 end)).
Proof.
  intros f n Hn. exists (negb (Z.gcd n (WHEEL_SIZE f) =? 1)). split; [apply wheel_reject_law; exact Hn|].
  replace (match f with BigTable => 2 * 3 * 5 * 7 * 11 | SmallTable => 2 * 3 * 5 end) with (WHEEL_SIZE f) by (destruct f; reflexivity).
  pose proof (wheel_size_pos f) as Hw. rewrite negb_true_iff, Z.eqb_neq. split.
  - intros H. assert (Hg : 0 <= Z.gcd n (WHEEL_SIZE f)) by apply Z.gcd_nonneg.
    assert (H0 : Z.gcd n (WHEEL_SIZE f) <> 0) by (intros C; apply Z.gcd_eq_0 in C; lia).
    destruct (prime_divisor_exists (Z.gcd n (WHEEL_SIZE f))) as [p [Hp Hd]]; [lia|]. exists p. split; [exact Hp|].
    split; (eapply Z.divide_trans; [exact Hd|]); [apply Z.gcd_divide_l | apply Z.gcd_divide_r].
  - intros [p [Hp [H1 H2]]] C. pose proof (prime_ge2 p Hp). assert (D : (p | 1)) by (rewrite <- C; apply Z.gcd_greatest; assumption).
    apply Z.divide_pos_le in D; lia.
Qed.
Theorem C48_prime_table : forall f, lists_primes (SMALL_PRIMES f) (fun p => p < SMALL_PRIMES_NEXT f) /\ prime (SMALL_PRIMES_NEXT f).
Proof. intros f. split; [apply small_primes_list|]. rewrite small_next. destruct f; apply fast_primeb_spec; vm_compute; reflexivity. Qed.
Example C48_case : wheel_reject BigTable 77 = Ret true /\ wheel_reject SmallTable 77 = Ret false /\ hash32 4294967291 = 218.
Proof. vmc. Qed.

(** C49: the preset configurations, for odd numbers beyond 64 bits tested with a new buffer. *)
Lemma table_firstn : forall f, firstn 1 (buf_iter (buf_new f)) = [2] /\ firstn 2 (buf_iter (buf_new f)) = [2; 3].
Proof. intros [|]; split; reflexivity. Qed.
Theorem C49_bpsw : forall f pf t n A (PR : probs A) fuel dr r dr', valid_ity t -> in_range t n -> 2 ^ 64 <= n -> Z.odd n = true ->
  nt_is_prime f pf (uops f pf t) PR fuel n (Some pc_bpsw) dr = Ret (r, dr') ->
  (probably r = true <-> strong_prp n 2 /\ is_slprp pf (uops f pf t) fuel n None None <> Ret false).
Proof.
  intros f pf t n A PR fuel dr r dr' Ht Hn Hl Ho E.
  destruct (C14_is_prime_large f pf t n A PR fuel (buf_iter (buf_new f)) (Some pc_bpsw) dr r dr' Ht Hn Hl ltac:(intros w Hw; apply new_buf_range in Hw; lia) E) as [NY H].
  cbv zeta in H. cbn [pc_bpsw sprp_trials sprp_random_trials slprp_test eslprp_test] in H. specialize (H Ho). destruct H as [rnd [Hlen [_ [_ H]]]].
  destruct rnd; [|cbn [length] in Hlen; lia]. change (Z.to_nat 1) with 1%nat in H. rewrite (proj1 (table_firstn f)), app_nil_r in H.
  assert (Hp : probably r = true <-> r <> No) by (destruct r; cbn; split; congruence). rewrite Hp. rewrite H. split.
  - intros K. split.
    + destruct (z_sprp n 2) eqn:Ez; [apply z_sprp_spec; auto; lia|]. exfalso. apply K. left. exists 2. split; [left; reflexivity|].
      intros C. apply z_sprp_spec in C; [congruence | lia | exact Ho].
    + intros C. apply K. right. left. auto.
  - intros [K1 K2] [[w [[<-|[]] C]]|[[_ C]|[C _]]]; [contradiction | contradiction | discriminate C].
Qed.
(** Primes of any size pass BPSW whatever the random source; randomness is not consumed. *)
Theorem C49_bpsw_accepts_primes : forall f pf t n A (PR : probs A) fuel dr r dr', valid_ity t -> in_range t n -> prime n ->
  Z.of_nat fuel <= 2 ^ 31 -> Z.log2 (n + 1) < 2 ^ 64 ->
  nt_is_prime f pf (uops f pf t) PR fuel n (Some pc_bpsw) dr = Ret (r, dr') -> probably r = true /\ dr' = dr.
Proof. intros. eapply C13_no_random_trials; try eassumption. cbn. lia. Qed.
Theorem C49_default_and_strict : forall f pf t n A (PR : probs A) fuel dr r dr' config, valid_ity t -> in_range t n -> 2 ^ 64 <= n -> Z.odd n = true ->
  nt_is_prime f pf (uops f pf t) PR fuel n config dr = Ret (r, dr') ->
  (config = None \/ config = Some pc_default -> exists a b c, NoDup [2; 3; a; b; c] /\
     (probably r = true <-> strong_prp n 2 /\ strong_prp n 3 /\ strong_prp n a /\ strong_prp n b /\ strong_prp n c)) /\
  (config = Some pc_strict -> exists a, a <> 2 /\
     (probably r = true <-> strong_prp n 2 /\ strong_prp n a /\ is_slprp pf (uops f pf t) fuel n None None <> Ret false)).
Proof.
  intros f pf t n A PR fuel dr r dr' config Ht Hn Hl Ho E.
  destruct (C14_is_prime_large f pf t n A PR fuel (buf_iter (buf_new f)) config dr r dr' Ht Hn Hl ltac:(intros w Hw; apply new_buf_range in Hw; lia) E) as [NY H].
  cbv zeta in H. specialize (H Ho). destruct H as [rnd [Hlen [Hnd [Hr H]]]].
  assert (Hp : probably r = true <-> r <> No) by (destruct r; cbn; split; congruence).
  assert (Dec : forall w, strong_prp n w \/ ~ strong_prp n w).
  { intros w. destruct (z_sprp n w) eqn:Ez; [left; apply z_sprp_spec; auto; lia | right; intros C; apply z_sprp_spec in C; [congruence | lia | exact Ho]]. }
  split.
  - intros Hc. assert (Ec : match config with Some c => c | None => {| sprp_trials := 2; sprp_random_trials := 3; slprp_test := false; eslprp_test := false |} end = pc_default) by (destruct Hc as [-> | ->]; reflexivity).
    rewrite Ec in *. cbn [pc_default sprp_trials sprp_random_trials slprp_test eslprp_test] in *. change (Z.to_nat 2) with 2%nat in *.
    rewrite (proj2 (table_firstn f)) in *. destruct rnd as [|a [|b [|c [|]]]]; cbn [length] in Hlen; try lia. exists a, b, c. split.
    + constructor; [|constructor; [|exact Hnd]].
      * intros [C|C]; [discriminate C|]. apply Hr in C. destruct C as [C _]. apply C. left. reflexivity.
      * intros C. apply Hr in C. destruct C as [C _]. apply C. right. left. reflexivity.
    + rewrite Hp, H. cbn [app In]. split.
      * intros K. assert (G : forall w, In w [2; 3; a; b; c] -> strong_prp n w).
        { intros w Hw. destruct (Dec w) as [|C]; [assumption|]. exfalso. apply K. left. exists w. auto. }
        repeat split; apply G; cbn [In]; tauto.
      * intros [K1 [K2 [K3 [K4 K5]]]] [[w [Hw C]]|[[C _]|[C _]]]; [|discriminate C | discriminate C].
        destruct Hw as [<-|[<-|[<-|[<-|[<-|[]]]]]]; contradiction.
  - intros ->. cbn [pc_strict pc_bpsw sprp_trials sprp_random_trials slprp_test eslprp_test] in *. change (Z.to_nat 1) with 1%nat in *.
    rewrite (proj1 (table_firstn f)) in *. destruct rnd as [|a [|]]; cbn [length] in Hlen; try lia. exists a. split.
    + intros ->. destruct (Hr 2) as [C _]; [left; reflexivity | apply C; left; reflexivity].
    + rewrite Hp, H. cbn [app In]. split.
      * intros K. split; [|split].
        -- destruct (Dec 2) as [|C]; [assumption|]. exfalso. apply K. left. exists 2. auto.
        -- destruct (Dec a) as [|C]; [assumption|]. exfalso. apply K. left. exists a. auto.
        -- intros C. apply K. right. left. auto.
      * intros [K1 [K2 K3]] [[w [[<-|[<-|[]]] C]]|[[_ C]|[C _]]]; try contradiction. discriminate C.
Qed.
Example C49_case : nt_is_prime BigTable Debug (uops BigTable Debug u128) no_probs 0 (2 ^ 89 - 1) (Some pc_default) [11; 12; 13] = Ret (Probable tt, []) .
Proof. vm_compute; reflexivity. Qed.

Print Assumptions C10_is_prime64_accepts_primes.
Print Assumptions C10_is_prime64_total.
Print Assumptions C11_is_prime64_sound_partial.
Print Assumptions C11_is_prime64_table_exact.
Print Assumptions C12_is_prime_definite.
Print Assumptions C12_even.
Print Assumptions C13_is_prime_never_rejects.
Print Assumptions C13_no_random_trials.
Print Assumptions C13_zero_witness_refuted.
Print Assumptions C14_is_prime_large.
Print Assumptions C15_and.
Print Assumptions C15_or.
Print Assumptions C15_probably.
Print Assumptions C15_units.
Print Assumptions C15_definite.
Print Assumptions C15_comm_assoc.
Print Assumptions C48_hash_in_table.
Print Assumptions C48_wheel_exact.
Print Assumptions C48_prime_table.
Print Assumptions C49_bpsw.
Print Assumptions C49_bpsw_accepts_primes.
Print Assumptions C49_default_and_strict.
