(** * Proofs about the example in the documentation of the crate (src/lib.rs:33-49): factorize128 on numbers
    which the table primes reduce to 1 or to a prime. *)
From Coq Require Import ZArith Znumtheory Zpow_facts List Lia Bool Sorted.
From Verif Require Import Base Tables Spec Ext NT PBase PTables MInteger PInteger Ops POps MPrimality MTraits PSprp PropSprp MFactor MSieve MIsPrime NTLegendre NTLucas NTResidue PLucas PLucas2 PLucas3 PropLucas PropMint PIsPrime PIsPrime2 MFactorize PFactor PFactor2 PFactorize PFactorize2 PFactorize3 NTPock.
Import ListNotations.
Local Open Scope Z_scope.

(** no discriminant that stops the search for Lucas parameters among the first [lf] *)
Definition short_of (n : Z) (lf : nat) : Prop := forall d, Z.odd d = true -> 5 <= d < 5 + 2 * Z.of_nat lf -> legendre (star d) n <> -1.
Lemma legendre_m1 : forall p a, prime p -> Z.odd p = true -> Zpow_mod a ((p - 1) / 2) p = p - 1 -> legendre a p = -1.
Proof.
  intros p a Pp Ho E. pose proof (odd_prime_3 p Pp Ho) as H3. pose proof (euler_criterion p a Pp Ho) as C. pose proof (legendre_range a p ltac:(lia)) as R.
  rewrite Zpow_mod_correct in E by lia. apply (small_eqm p); [lia | exact R | lia |].
  apply eqm_trans with (a ^ ((p - 1) / 2)); [apply eqm_sym, C|]. apply eqm_trans with (a ^ ((p - 1) / 2) mod p); [apply eqm_sym, eqm_mod; lia|]. rewrite E.
  apply eqm_mod_eq; [lia|]. replace (p - 1) with (-1 + 1 * p) by ring. apply Z.mod_add. lia.
Qed.
Lemma not_short : forall p a d lf, prime p -> Z.odd p = true -> Z.odd d = true -> 5 <= d < 5 + 2 * Z.of_nat lf -> star d =[p]= a -> Zpow_mod a ((p - 1) / 2) p = p - 1 -> ~ short_of p lf.
Proof. intros p a d lf Pp Ho Od Hd Ea E S. apply (S d Od Hd). pose proof (odd_prime_3 p Pp Ho). rewrite (legendre_eqm _ a) by (assumption || lia). apply legendre_m1; assumption. Qed.

(** BPSW on a prime: accepted without drawing, or the search for Lucas parameters is out of fuel *)
Lemma bpsw_prime : forall f pf t n lf, valid_ity t -> in_range t n -> prime n -> Z.odd n = true -> Z.of_nat lf <= 2 ^ 61 ->
  (forall dr, prime_probably f pf t lf n (Some pc_bpsw) dr = Ret (true, dr)) \/
  (Z.of_nat lf < 6 + Z.sqrt n /\ short_of n lf /\ forall dr, prime_probably f pf t lf n (Some pc_bpsw) dr = NoFuel).
Proof.
  intros f pf t n lf Ht Hn Pn Ho Hlf. unfold prime_probably, nt_is_prime. assert (VU : UV t n n) by (split; auto). pose proof (prime_ge2 n Pn) as H2.
  destruct (Z.lt_ge_cases n (2 ^ 64)) as [Hs|Hl].
  - left. intros dr. rewrite (is_prime_small f pf _ no_probs t _ _ _ (uops_lawful f pf t) Ht _ _ _ _ _ _ VU Hs).
    rewrite (z_is_prime64_complete f n Pn). reflexivity.
  - assert (Hb : forall w, In w (buf_iter (buf_new f)) -> 0 <= w < 2 ^ 64) by (intros w Hw; apply new_buf_range in Hw; lia).
    destruct (self_at_exists n ltac:(lia) Ho) as [e Ha].
    assert (Hsl := is_slprp_auto pf _ t _ _ _ (uops_lawful f pf t) Ht lf n n e None None VU ltac:(cbv beta; lia) Ho ltac:(lia) Ha (or_introl Hlf) (or_introl eq_refl)).
    assert (E : forall dr, is_prime f pf (uops f pf t) no_probs lf (buf_iter (buf_new f)) n (Some pc_bpsw) dr =
      if negb (forallb (z_sprp n) (fixed_witnesses pc_bpsw (buf_iter (buf_new f)))) then Ret (No, dr) else
      if Z.of_nat lf <=? (e - 5) / 2 then NoFuel else if negb (z_auto z_slprp n e) then Ret (No, dr) else Ret (Probable tt, dr)).
    { intros dr. rewrite (is_prime_large f pf _ no_probs t _ _ _ (uops_lawful f pf t) Ht lf _ n n (Some pc_bpsw) dr VU ltac:(cbv beta; lia) Ho Hl Hb). cbv zeta. cbn [the_config].
      unfold draw_witnesses. cbn [pc_bpsw sprp_random_trials slprp_test eslprp_test]. change (0 <? 0) with false. cbn [bind]. fold pc_bpsw. rewrite Hsl.
      destruct (negb _); [reflexivity|]. destruct (Z.of_nat lf <=? (e - 5) / 2); [reflexivity|]. cbn [bind]. destruct (z_auto z_slprp n e); reflexivity. }
    assert (Hw : forallb (z_sprp n) (fixed_witnesses pc_bpsw (buf_iter (buf_new f))) = true).
    { apply forallb_forall. intros a Ha'. apply z_sprp_spec; [lia | exact Ho|]. apply prime_strong_prp; [exact Pn | exact Ho |].
      assert (Ra : 0 < a < 2 ^ 64).
      { unfold fixed_witnesses in Ha'. apply new_buf_range with (f := f). destruct (0 <? _) in Ha'; [|contradiction]. revert Ha'. generalize (buf_iter (buf_new f)) (Z.to_nat (sprp_trials pc_bpsw)). intros l k Hi. rewrite <- (firstn_skipn k l). apply in_or_app. left. exact Hi. }
      intros D. apply Z.divide_pos_le in D; lia. }
    rewrite Hw in E. cbn [negb] in E. destruct (Z.of_nat lf <=? (e - 5) / 2) eqn:Ef.
    + right. split; [|split; [|intros dr; rewrite E; reflexivity]].
      2:{ intros d Od Hd Hj. apply Z.leb_le in Ef. destruct Ha as [Oe [_ [_ Hmin]]]. pose proof (Z.mul_div_le (e - 5) 2 ltac:(lia)).
          specialize (Hmin d Od ltac:(lia)). unfold self_stop in Hmin. rewrite jacobi_prime, Hj in Hmin by exact Pn. rewrite !orb_true_r in Hmin. discriminate. }
      destruct (Z.lt_ge_cases (Z.of_nat lf) (6 + Z.sqrt n)) as [L|L]; [exact L|].
      rewrite (sqrt_fuel_self n e lf Ha L) in Ef. discriminate.
    + left. intros dr. rewrite E. assert (Hz : z_auto z_slprp n e = true).
      { unfold z_auto. rewrite (self_prime_usable n e Pn Ho Ha). apply prime_slprp; [assumption | assumption | right; apply auto_cond; assumption]. }
      rewrite Hz. reflexivity.
Qed.

Section F128.
Variables (f : feature) (pf : profile) (lf : nat) (fuel : Z).
Hypothesis (Hlf : Z.of_nat lf <= 2 ^ 61).
Hypothesis (Hfuel : 129 < fuel).

Lemma adv128_prime : forall r dr, prime r -> cofactor f 128 r ->
  factorize128_advanced f pf lf fuel r 1 dr = Ret ([(r, 1)], dr) \/ (2 ^ 64 <= r /\ short_of r lf /\ Z.of_nat lf < 6 + Z.sqrt r /\ factorize128_advanced f pf lf fuel r 1 dr = NoFuel).
Proof.
  intros r dr Pr C. unfold factorize128_advanced, route. pose proof (cofactor_odd f 128 r C) as Ho. pose proof (cofactor_ge f 128 r C) as Hge. pose proof (next_ge f) as Hnx. pose proof C as [Hn C2].
  destruct (Z.ltb_spec r (2 ^ 64)) as [L|L].
  - left. unfold loop. replace fuel with (fuel - 1 + 1) at 1 by lia. rewrite iter_succ by lia. cbn [adv128_step bind kbind].
    rewrite (adv64_prime f pf fuel ltac:(lia) r dr Pr); [reflexivity|]. split; [lia | exact C2].
  - assert (Hin : in_range u128 r) by (cbn [in_range u128]; lia).
    pose proof (mint_probably_eq f pf u128 r lf (Some pc_bpsw) dr ltac:(cbn; lia) Hin Ho ltac:(lia) eq_refl Hlf) as Em.
    unfold loop. replace fuel with (fuel - 2 + 1 + 1) by lia. rewrite iter_succ by lia. cbn [adv128_step]. rewrite Em.
    destruct (bpsw_prime f pf u128 r lf ltac:(cbn; lia) Hin Pr Ho Hlf) as [Hb|[Hb1 [Hb3 Hb2]]].
    + left. rewrite Hb. cbn [bind kbind]. rewrite iter_succ by lia. cbn [adv128_step bind kbind app].
      unfold factorize64_advanced, loop. rewrite iter_succ by lia. cbn [adv64_step bind kbind app]. reflexivity.
    + right. split; [exact L|]. rewrite Hb2. auto.
Qed.

Theorem factorize128_total : forall n s q dr, 2 ^ 64 <= n < 2 ^ 128 -> n = s * q -> 1 <= s -> (forall p, prime p -> (p | s) -> p < SMALL_PRIMES_NEXT f) -> q = 1 \/ prime q ->
  (exists m, factorize128 f pf lf fuel n dr = Ret (m, dr) /\ prime_factorization n m) \/
  (2 ^ 64 <= q /\ short_of q lf /\ Z.of_nat lf < 6 + Z.sqrt q /\ factorize128 f pf lf fuel n dr = NoFuel).
Proof.
  intros n s q dr Hn En Hs Hsm Hq. unfold factorize128. replace (n <? 2 ^ 64) with false by (symmetry; apply Z.ltb_ge; lia).
  unfold bt_trailing_zeros. replace (n =? 0) with false by (symmetry; apply Z.eqb_neq; lia). cbv zeta.
  assert (Hin : in_range u128 n) by (cbn [u128 in_range]; lia). destruct (shr_ztz pf u128 n Hin ltac:(lia)) as [-> _]. cbn [bind].
  destruct (table_stage f fuel true None n ltac:(lia) Hfuel) as [res [rsd [fac [-> [W [P [R [K [F T]]]]]]]]]. cbn [bind].
  destruct fac.
  - left. exists res. split; [reflexivity|]. destruct (T eq_refl) as [E1|[T' [ET _]]]; [|discriminate]. rewrite E1, Z.mul_1_r in P.
    split; [exact W|]. split; [|exact P]. apply Forall_forall. intros pe Hpe. apply K, in_map, Hpe.
  - pose proof (F eq_refl) as C. pose proof C as [C1 C2]. assert (Hg : Z.gcd rsd s = 1).
    { apply small_coprime; [lia|]. intros p Pp D1 D2. apply (C2 p Pp (Hsm p Pp D2) D1). }
    assert (D : (rsd | q)). { apply (Z.gauss _ s); [|exact Hg]. exists (prod_powers res). lia. }
    destruct Hq as [->|Pq]; [apply Z.divide_1_r_nonneg in D; lia|].
    assert (rsd = q) as ->. { destruct (prime_divisors q Pq rsd D) as [H|[H|[H|H]]]; pose proof (prime_ge2 q Pq); lia. }
    destruct (adv128_prime q dr Pq C) as [Ea|[Ea [Eb [Ec Ed]]]]; [|right; rewrite Ed; auto]. left. rewrite Ea. cbn [bind].
    exists (merge_factors res [(q, 1)]). split; [reflexivity|].
    destruct (merge_spec [(q, 1)] res W) as [M1 [M2 M3]]. { intros p e [H|[]]. injection H as _ <-. lia. }
    split; [exact M1|]. split; [|rewrite M2; cbn [prod_powers]; rewrite Z.pow_1_r; lia].
    apply Forall_forall. intros pe Hpe. assert (Hk : In (fst pe) (map fst (merge_factors res [(q, 1)]))) by (apply in_map, Hpe).
    destruct (M3 _ Hk) as [H|[H|[]]]; [apply K, H|]. cbn [fst] in H. rewrite <- H. exact Pq.
Qed.
End F128.
