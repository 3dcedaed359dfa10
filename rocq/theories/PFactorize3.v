(** * Proofs about factorize128 (src/nt_funcs.rs:323-497), and the agreement of is_prime on Montgomery
    wrapped and plain integers. *)
From Coq Require Import ZArith Znumtheory List Lia Bool Sorted.
From Verif Require Import Base Tables Spec Ext NT PBase PTables MInteger PInteger Ops POps MPrimality MTraits PSprp PropSprp MFactor MSieve MIsPrime NTLucas NTResidue PLucas PLucas2 PLucas3 PropMint PIsPrime PIsPrime2 MFactorize PFactor PFactor2 PFactorize PFactorize2.
Import ListNotations.
Local Open Scope Z_scope.

Lemma mint_is_prime_agrees : forall f pf t n A (PR : probs A) lf buf config dr, valid_ity t -> in_range t n -> Z.odd n = true -> 1 <= n ->
  (forall w, In w buf -> 0 <= w < 2 ^ 64) -> eslprp_test (the_config config) = false -> Z.of_nat lf <= 2 ^ 61 ->
  is_prime f pf (mops pf t) PR lf buf (ML n) config dr = is_prime f pf (uops f pf t) PR lf buf n config dr.
Proof.
  intros f pf t n A PR lf buf config dr Ht Hn Ho H1 Hbuf He Hlf.
  assert (VU : UV t n n) by (split; auto). assert (VM : MV t (ML n) n) by (split; auto).
  destruct (Z.lt_ge_cases n (2 ^ 64)) as [Hs|Hl].
  - rewrite (is_prime_small f pf _ PR t _ _ _ (uops_lawful f pf t) Ht _ _ _ _ _ _ VU Hs).
    apply (is_prime_small f pf _ PR t _ _ _ (mops_lawful pf t) Ht _ _ _ _ _ _ VM Hs).
  - rewrite (is_prime_large f pf _ PR t _ _ _ (uops_lawful f pf t) Ht lf buf n n config dr VU ltac:(cbv beta; lia) Ho Hl Hbuf).
    rewrite (is_prime_large f pf _ PR t _ _ _ (mops_lawful pf t) Ht lf buf (ML n) n config dr VM (conj H1 Ho) Ho Hl Hbuf).
    cbv zeta. rewrite He. destruct (agree_auto f pf t n Ht Hn ltac:(lia) Ho lf (or_introl Hlf)) as [_ ->]. reflexivity.
Qed.
(** the BPSW test draws nothing and does not panic *)
Lemma bpsw_run : forall f pf t n lf, valid_ity t -> in_range t n -> Z.odd n = true -> 1 <= n -> Z.of_nat lf <= 2 ^ 61 ->
  (exists b, forall dr, prime_probably f pf t lf n (Some pc_bpsw) dr = Ret (b, dr)) \/ (forall dr, prime_probably f pf t lf n (Some pc_bpsw) dr = NoFuel).
Proof.
  intros f pf t n lf Ht Hn Ho H1 Hlf. unfold prime_probably, nt_is_prime. assert (VU : UV t n n) by (split; auto).
  destruct (Z.lt_ge_cases n (2 ^ 64)) as [Hs|Hl].
  - left. eexists. intros dr. rewrite (is_prime_small f pf _ no_probs t _ _ _ (uops_lawful f pf t) Ht _ _ _ _ _ _ VU Hs). cbn [bind]. reflexivity.
  - assert (Hb : forall w, In w (buf_iter (buf_new f)) -> 0 <= w < 2 ^ 64) by (intros w Hw; apply new_buf_range in Hw; lia).
    destruct (self_at_exists n ltac:(lia) Ho) as [e Ha].
    assert (Hsl := is_slprp_auto pf _ t _ _ _ (uops_lawful f pf t) Ht lf n n e None None VU ltac:(cbv beta; lia) Ho ltac:(lia) Ha (or_introl Hlf) (or_introl eq_refl)).
    assert (E : forall dr, is_prime f pf (uops f pf t) no_probs lf (buf_iter (buf_new f)) n (Some pc_bpsw) dr =
      if negb (forallb (z_sprp n) (fixed_witnesses pc_bpsw (buf_iter (buf_new f)))) then Ret (No, dr) else
      if Z.of_nat lf <=? (e - 5) / 2 then NoFuel else if negb (z_auto z_slprp n e) then Ret (No, dr) else Ret (Probable tt, dr)).
    { intros dr. rewrite (is_prime_large f pf _ no_probs t _ _ _ (uops_lawful f pf t) Ht lf _ n n (Some pc_bpsw) dr VU ltac:(cbv beta; lia) Ho Hl Hb). cbv zeta. cbn [the_config].
      unfold draw_witnesses. cbn [pc_bpsw sprp_random_trials slprp_test eslprp_test]. change (0 <? 0) with false. cbn [bind]. fold pc_bpsw. rewrite Hsl.
      destruct (negb _); [reflexivity|]. destruct (Z.of_nat lf <=? (e - 5) / 2); [reflexivity|]. cbn [bind]. destruct (z_auto z_slprp n e); reflexivity. }
    destruct (negb (forallb (z_sprp n) (fixed_witnesses pc_bpsw (buf_iter (buf_new f))))).
    { left. eexists. intros dr. rewrite E. reflexivity. }
    destruct (Z.of_nat lf <=? (e - 5) / 2); [right; intros dr; rewrite E; reflexivity|]. left. destruct (negb (z_auto z_slprp n e)); eexists; intros dr; rewrite E; reflexivity.
Qed.
Lemma mint_probably_eq : forall f pf t n lf config dr, valid_ity t -> in_range t n -> Z.odd n = true -> 1 <= n -> eslprp_test (the_config config) = false -> Z.of_nat lf <= 2 ^ 61 ->
  mint_probably f pf t lf n config dr = prime_probably f pf t lf n config dr.
Proof.
  intros f pf t n lf config dr Ht Hn Ho H1 He Hlf. unfold mint_probably, prime_probably, nt_is_prime.
  rewrite (mint_is_prime_agrees f pf t n _ no_probs lf _ config dr Ht Hn Ho H1); auto. intros w Hw. apply new_buf_range in Hw. lia.
Qed.

Section Adv128.
Variables (f : feature) (pf : profile) (lf : nat) (fuel P : Z).
Hypothesis (HP : 1 <= P < 2 ^ 128).
Hypothesis (Hlf : Z.of_nat lf <= 2 ^ 61).
Hypothesis (Hfuel : 129 < fuel).

(** accepted by is_prime with the BPSW configuration, whatever the random state *)
Definition accepted (k : Z) : Prop := forall dr, prime_probably f pf u128 lf k (Some pc_bpsw) dr = Ret (true, dr).
Lemma accepted_small : forall k, 0 <= k < 2 ^ 64 -> z_is_prime64 f k = true -> accepted k.
Proof.
  intros k Hk H dr. unfold prime_probably, nt_is_prime. assert (VU : UV u128 k k) by (split; [reflexivity | cbn [u128 in_range]; lia]).
  rewrite (is_prime_small f pf _ no_probs u128 _ _ _ (uops_lawful f pf u128) ltac:(cbn; lia) _ _ _ _ _ _ VU ltac:(lia)). rewrite H. reflexivity.
Qed.

Definition entry128 (x : Z * Z) : Prop := cofactor f 128 (fst x) /\ 1 <= snd x.
Definition adv128_inv (st : list (Z * Z) * list (Z * Z) * list (Z * Z) * draws) : Prop :=
  let '(t128, t64, factored, _) := st in
  Forall entry128 t128 /\ Forall (entry64 f) t64 /\ Forall (fun x => entry128 x /\ accepted (fst x)) factored /\
  prod_powers t128 * (prod_powers t64 * prod_powers factored) = P.
Definition adv128_done (x : list (Z * Z) * list (Z * Z) * draws) : Prop :=
  let '(t64, factored, _) := x in
  Forall (entry64 f) t64 /\ Forall (fun x => entry128 x /\ accepted (fst x)) factored /\ prod_powers t64 * prod_powers factored = P.

Lemma entry128_pos : forall l, Forall entry128 l -> 1 <= prod_powers l.
Proof.
  intros l H. rewrite Forall_forall in H. apply prod_powers_pos. intros p e Hin. destruct (H _ Hin) as [[A _] B]. cbn [fst snd] in *. lia.
Qed.
Lemma route_spec : forall d e t128 t64, cofactor f 128 d -> 1 <= e -> Forall entry128 t128 -> Forall (entry64 f) t64 ->
  Forall entry128 (fst (route d e t128 t64)) /\ Forall (entry64 f) (snd (route d e t128 t64)) /\
  prod_powers (fst (route d e t128 t64)) * prod_powers (snd (route d e t128 t64)) = d ^ e * (prod_powers t128 * prod_powers t64).
Proof.
  intros d e t128 t64 Hc He H1 H2. unfold route. destruct (Z.ltb_spec d (2 ^ 64)) as [L|L]; cbn [fst snd prod_powers].
  - split; [exact H1|]. split; [|ring]. constructor; [|exact H2]. split; [|exact He]. destruct Hc as [A B]. split; [cbn [fst]; lia | exact B].
  - split; [constructor; [split; assumption | exact H1]|]. split; [exact H2 | ring].
Qed.

Lemma adv128_step_spec : forall st, adv128_inv st -> run (pf = Debug) True (fun r => match r with Next st' => adv128_inv st' | Done x => adv128_done x end) (adv128_step f pf lf fuel st).
Proof.
  intros [[[t128 t64] factored] dr] [H1 [H2 [H3 E]]]. unfold adv128_step. destruct t128 as [|[n e] t128].
  - cbn [run adv128_done]. split; [exact H2|]. split; [exact H3|]. cbn [prod_powers] in E. lia.
  - inversion H1 as [|x l [Hc He] H1']; subst x l. cbn [fst snd] in Hc, He. cbn [prod_powers] in E.
    pose proof (cofactor_odd f 128 n Hc) as Ho. pose proof (cofactor_ge f 128 n Hc) as Hge. pose proof (next_ge f) as Hnx. pose proof Hc as [Hn _].
    assert (Hin : in_range u128 n) by (cbn [in_range u128]; lia).
    rewrite (mint_probably_eq f pf u128 n lf (Some pc_bpsw) dr ltac:(cbn; lia) Hin Ho ltac:(lia) eq_refl Hlf).
    pose proof (entry128_pos t128 H1') as T1. pose proof (entry64_pos f t64 H2) as T2.
    assert (F1 : 1 <= prod_powers factored) by (apply entry128_pos; eapply Forall_impl; [|exact H3]; cbn beta; tauto).
    assert (He' : e < 128) by (apply (exponent_small P HP n e (prod_powers t128 * (prod_powers t64 * prod_powers factored))); [lia | lia | nia | lia]).
    destruct (bpsw_run f pf u128 n lf ltac:(cbn; lia) Hin Ho ltac:(lia) Hlf) as [[b Hb]|Hb]; [|rewrite Hb; exact I].
    rewrite Hb. cbn [bind]. destruct b.
    { cbn [run adv128_inv]. split; [exact H1'|]. split; [exact H2|]. split.
      - apply Forall_app. split; [exact H3|]. constructor; [|constructor]. split; [split; assumption | exact Hb].
      - rewrite prod_powers_app. cbn [prod_powers]. lia. }
    assert (Hroute : forall d e', cofactor f 128 d -> 1 <= e' -> d ^ e' = n ^ e -> let '(a, b) := route d e' t128 t64 in adv128_inv (a, b, factored, dr)).
    { intros d e' Hd He1 Ed. destruct (route_spec d e' t128 t64 Hd He1 H1' H2) as [R1 [R2 R3]]. destruct (route d e' t128 t64) as [a b]. cbn [fst snd] in *.
      split; [exact R1|]. split; [exact R2|]. split; [exact H3|]. rewrite Z.mul_assoc, R3, Ed. lia. }
    destruct (sqrt_exact_lawful f pf u128 n Hin ltac:(lia)) as [o [-> Hr]]. cbn [bind]. destruct o as [d|]; cbn [exact_root] in Hr.
    { destruct Hr as [Hd0 Hd]. rewrite mul_ok by (cbn [usize in_range]; lia). cbn [bind].
      assert (Hd1 : 1 < d) by (rewrite Z.pow_2_r in Hd; nia).
      specialize (Hroute d (e * 2)). destruct (route d (e * 2) t128 t64) as [a b]. cbn [run]. apply Hroute; [|lia|].
      - apply (cofactor_div f 128 n d Hc Hd1). exists d. rewrite <- Hd. ring.
      - replace (e * 2) with (2 * e) by ring. rewrite Z.pow_mul_r, Hd by lia. reflexivity. }
    destruct (nth_root_exact_nonneg n 3) as [o [Eo Hr3]]; [lia | lia|]. cbn [cbrt_exact u128]. unfold cbrt_exact_prim. rewrite Eo. cbn [bind]. destruct o as [d|].
    { destruct Hr3 as [Hd0 Hd]. rewrite mul_ok by (cbn [usize in_range]; lia). cbn [bind].
      assert (Ed : d ^ 3 = d * d * d) by ring. assert (Hd1 : 1 < d) by nia.
      specialize (Hroute d (e * 3)). destruct (route d (e * 3) t128 t64) as [a b]. cbn [run]. apply Hroute; [|lia|].
      - apply (cofactor_div f 128 n d Hc Hd1). exists (d * d). rewrite <- Hd. exact Ed.
      - replace (e * 3) with (3 * e) by ring. rewrite Z.pow_mul_r, Hd by lia. reflexivity. }
    assert (Hns : ~ exists s, s * s = n).
    { intros [s Hs]. apply (Hr (Z.abs s)); [lia|]. rewrite Z.pow_2_r. nia. }
    apply run_bind. eapply run_mono; [apply (find_divisor_spec f pf fuel 128 ltac:(cbn; lia) n Hc Hns) | auto | auto |].
    intros [d dr'] [D1 [D2 D3]]. cbn [fst] in *. destruct D3 as [c D3].
    assert (Hcd : cofactor f 128 d) by (apply (cofactor_div f 128 n d Hc D1); exists c; lia).
    destruct (route_spec d e t128 t64 Hcd He H1' H2) as [R1 [R2 R3]]. destruct (route d e t128 t64) as [a b]. cbn [fst snd] in *.
    rewrite div_ok by lia. cbn [bind]. assert (Ec : n / d = c) by (rewrite D3; apply Z.div_mul; lia). rewrite Ec. assert (Hc1 : 1 < c) by nia.
    assert (Hcc : cofactor f 128 c) by (apply (cofactor_div f 128 n c Hc Hc1); exists d; lia).
    destruct (route_spec c e a b Hcc He R1 R2) as [S1 [S2 S3]]. destruct (route c e a b) as [a' b']. cbn [fst snd] in *. cbn [run adv128_inv].
    split; [exact S1|]. split; [exact S2|]. split; [exact H3|]. rewrite Z.mul_assoc, S3, R3. rewrite <- E, D3, Z.pow_mul_l. ring.
Qed.

Lemma adv128_spec : forall dr, cofactor f 128 P -> run (pf = Debug) True (fun x => prod_powers (fst x) = P /\ (forall p e, In (p, e) (fst x) -> 1 <= e /\ cofactor f 128 p /\ accepted p)) (factorize128_advanced f pf lf fuel P 1 dr).
Proof.
  intros dr HcP. unfold factorize128_advanced.
  destruct (route_spec P 1 [] [] HcP ltac:(lia) ltac:(constructor) ltac:(constructor)) as [R1 [R2 R3]]. destruct (route P 1 [] []) as [t128 t64]. cbn [fst snd prod_powers] in *.
  apply run_bind. eapply run_mono; [apply (run_loop _ _ (pf = Debug) True adv128_inv adv128_done) | auto | auto |].
  - cbn [adv128_inv prod_powers]. split; [exact R1|]. split; [exact R2|]. split; [constructor|]. rewrite Z.mul_1_r, R3, Z.pow_1_r. lia.
  - exact I.
  - intros st Hst. apply adv128_step_spec, Hst.
  - intros [[todo64 factored] dr1] [D1 [D2 D3]].
    pose proof (entry64_pos f todo64 D1) as Q1. assert (Q2 : 1 <= prod_powers factored) by (apply entry128_pos; eapply Forall_impl; [|exact D2]; cbn beta; tauto).
    apply run_bind. eapply run_mono; [apply (adv64_spec f pf fuel (prod_powers todo64)); [nia | exact D1 | reflexivity] | auto | auto |].
    intros [fs dr2] [A1 A2]. cbn [fst] in A1, A2. cbn [run fst]. split; [rewrite prod_powers_app; lia|].
    intros p e Hin. apply in_app_or in Hin. rewrite Forall_forall in D2, A1. destruct Hin as [Hin|Hin].
    + destruct (D2 _ Hin) as [[B1 B2] B3]. cbn [fst snd] in *. auto.
    + destruct (A1 _ Hin) as [[B1 B2] B3]. cbn [fst snd] in *. split; [exact B2|]. destruct B1 as [B1 B4]. split; [split; [lia | exact B4]|]. apply accepted_small; [lia | exact B3].
Qed.
End Adv128.

Section F128.
Variables (f : feature) (pf : profile) (lf : nat) (fuel : Z).
Hypothesis (Hlf : Z.of_nat lf <= 2 ^ 61).
Hypothesis (Hfuel : 129 < fuel).

Theorem factorize128_spec : forall n dr, 1 <= n < 2 ^ 128 ->
  run (pf = Debug) True (fun x => wf_map (fst x) /\ prod_powers (fst x) = n /\
    (forall k, In k (map fst (fst x)) -> accepted f pf lf k /\ (k <> n -> k < SMALL_PRIMES_NEXT f * SMALL_PRIMES_NEXT f -> prime k))) (factorize128 f pf lf fuel n dr).
Proof.
  intros n dr Hn. unfold factorize128. destruct (Z.ltb_spec n (2 ^ 64)) as [L|L].
  - eapply run_mono; [apply (factorize64_spec f pf fuel Hfuel n dr ltac:(lia)) | auto | auto |]. intros [m dr'] [A [B C]]. cbn [fst] in *. split; [exact A|]. split; [exact B|].
    intros k Hk. destruct (C k Hk) as [C1 C2]. split; [|exact C2]. apply accepted_small; [|exact C1].
    apply in_map_iff in Hk. destruct Hk as [[k' e] [<- Hk]]. cbn [fst] in *. assert (H2 : 2 <= k').
    { unfold z_is_prime64 in C1. destruct (Z.ltb_spec k' 2); [discriminate | lia]. }
    assert (Hpos : 1 <= prod_powers m). lia. 
    assert (Hdiv : k' ^ e <= n).
    { rewrite <- B. clear - A Hk C H2. destruct A as [_ A]. rewrite Forall_forall in A.
      assert (G : forall m, In (k', e) m -> (forall p x, In (p, x) m -> 1 <= p /\ 0 <= x) -> k' ^ e <= prod_powers m).
      { induction m0 as [|[p x] m0 IH]; intros Hi Hall; [contradiction|]. cbn [prod_powers].
        assert (P0 : 1 <= prod_powers m0) by (apply prod_powers_pos; intros; apply Hall; right; assumption).
        destruct Hi as [Hi|Hi]; [injection Hi as -> ->; destruct (Hall k' e (or_introl eq_refl)); pose proof (Z.pow_pos_nonneg k' e ltac:(lia) ltac:(lia)); nia|].
        destruct (Hall p x (or_introl eq_refl)) as [Q1 Q2]. pose proof (Z.pow_pos_nonneg p x ltac:(lia) Q2).
        specialize (IH Hi ltac:(intros; apply Hall; right; assumption)). destruct (Hall k' e (or_intror Hi)). pose proof (Z.pow_pos_nonneg k' e ltac:(lia) ltac:(lia)). nia. }
      apply G; [exact Hk|]. intros p x Hpx. specialize (A _ Hpx). cbn [snd] in A. destruct (C p (in_map fst _ _ Hpx)) as [C1 _]. unfold z_is_prime64 in C1. destruct (Z.ltb_spec p 2); [discriminate | lia]. }
    assert (He : 1 <= e) by (destruct A as [_ A]; rewrite Forall_forall in A; exact (A _ Hk)).
    assert (k' <= k' ^ e) by (replace e with (1 + (e - 1)) by lia; rewrite Z.pow_add_r, Z.pow_1_r by lia; pose proof (Z.pow_pos_nonneg k' (e - 1) ltac:(lia) ltac:(lia)); nia). lia.
  - unfold bt_trailing_zeros. replace (n =? 0) with false by (symmetry; apply Z.eqb_neq; lia). cbv zeta.
    assert (Hin : in_range u128 n) by (cbn [u128 in_range]; lia). destruct (shr_ztz pf u128 n Hin ltac:(lia)) as [-> _]. cbn [bind].
    destruct (table_stage f fuel true None n Hn Hfuel) as [res [rsd [fac [-> [W [P [R [K [F T]]]]]]]]]. cbn [bind].
    assert (Hkey : forall k, In k (map fst res) -> accepted f pf lf k /\ prime k).
    { intros k Hk. destruct (K k Hk) as [Pk [Hlt _]]. split; [|exact Pk]. apply accepted_small; [|apply z_is_prime64_complete, Pk].
      pose proof (prime_ge2 k Pk). rewrite small_next in Hlt. destruct f; lia. }
    destruct fac.
    + destruct (T eq_refl) as [E1|[T' [ET _]]]; [|discriminate]. cbn [run fst]. rewrite E1, Z.mul_1_r in P. split; [exact W|]. split; [exact P|].
      intros k Hk. destruct (Hkey k Hk). auto.
    + specialize (F eq_refl). pose proof F as [F1 _]. apply run_bind. eapply run_mono; [apply (adv128_spec f pf lf fuel rsd ltac:(lia) Hlf dr F) | auto | auto |].
      intros [fs dr'] [D1 D2]. cbn [fst] in *. cbn [run fst].
      destruct (merge_spec fs res W) as [M1 [M2 M3]]. { intros p e Hpe. apply (D2 _ _ Hpe). }
      split; [exact M1|]. split; [rewrite M2, D1; exact P|]. intros k Hk. destruct (M3 k Hk) as [H|H]; [destruct (Hkey k H); auto|].
      apply in_map_iff in H. destruct H as [[k' e] [<- Hpe]]. cbn [fst] in *. destruct (D2 _ _ Hpe) as [_ [Hco Hacc]]. split; [exact Hacc|]. intros _ Hlt. eapply cofactor_prime; eassumption.
Qed.
End F128.
