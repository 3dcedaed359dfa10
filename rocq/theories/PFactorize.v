(** * Proofs about the table stage of factorize64 / factorize128 (src/nt_funcs.rs:143-236, 323-381). *)
From Coq Require Import ZArith Znumtheory List Lia Bool Sorted.
From Verif Require Import Base Tables Spec Ext NT PBase PTables MInteger PInteger Ops POps MPrimality PSprp PropSprp MFactor MSieve MIsPrime PIsPrime MFactorize PLucas3 PFactor PFactor2.
Import ListNotations.
Local Open Scope Z_scope.

(** ** Division by a precomputed inverse *)
Definition inv_ok (p inv lim : Z) : bool := (2 <? p) && (p <? 2 ^ 64) && ((p * inv) mod 2 ^ 64 =? 1) && (lim =? (2 ^ 64 - 1) / p) && (0 <=? inv).
Lemma inv_table : forallb (fun e => inv_ok (fst e) (fst (snd e)) (snd (snd e))) (tl (combine (SMALL_PRIMES BigTable) SMALL_PRIMES_INV)) = true.
Proof. vm_compute. reflexivity. Qed.
Lemma inv_ok_spec : forall p inv lim, inv_ok p inv lim = true -> 2 < p < 2 ^ 64 /\ (p * inv) mod 2 ^ 64 = 1 /\ lim = (2 ^ 64 - 1) / p.
Proof.
  intros p inv lim H. unfold inv_ok in H. repeat (apply andb_true_iff in H; destruct H as [H ?]). apply Z.ltb_lt in H, H3. apply Z.eqb_eq in H1, H2. auto.
Qed.

Lemma preinv64_exact : forall p inv lim n, inv_ok p inv lim = true -> 0 <= n < 2 ^ 64 ->
  preinv_div64 n (inv, lim) = if n mod p =? 0 then Some (n / p) else None.
Proof.
  intros p inv lim n Hok Hn. apply inv_ok_spec in Hok. destruct Hok as [Hp [Hinv Hlim]]. unfold preinv_div64. cbn [fst snd]. cbv zeta.
  set (B := 2 ^ 64) in *. assert (HB : 0 < B) by (unfold B; lia).
  set (q := (n * inv) mod B). assert (Hq : 0 <= q < B) by (apply Z.mod_pos_bound; lia).
  assert (Eq : (q * p) mod B = n).
  { unfold q. rewrite Z.mul_mod_idemp_l by lia. replace (n * inv * p) with (n * (p * inv)) by ring. rewrite <- Z.mul_mod_idemp_r by lia. rewrite Hinv, Z.mul_1_r. apply Z.mod_small. exact Hn. }
  destruct (Z.leb_spec q lim) as [L|L].
  - assert (Hqp : q * p < B) by (assert (p * ((B - 1) / p) <= B - 1) by (apply Z.mul_div_le; lia); nia).
    rewrite Z.mod_small in Eq by nia. rewrite <- Eq. rewrite Z.mod_mul, Z.div_mul by lia. reflexivity.
  - destruct (Z.eqb_spec (n mod p) 0) as [E|E]; [|reflexivity]. exfalso.
    apply mod0_divide in E; [|lia]. destruct E as [c E].
    assert (Hc : q = c).
    { unfold q. rewrite E. replace (c * p * inv) with (c * (p * inv)) by ring. rewrite <- Z.mul_mod_idemp_r by lia. rewrite Hinv, Z.mul_1_r. apply Z.mod_small. nia. }
    assert (c <= (B - 1) / p); [|lia]. apply Z.div_le_lower_bound; lia.
Qed.

Lemma preinv128_exact : forall p inv lim n, inv_ok p inv lim = true -> 0 <= n < 2 ^ 128 ->
  preinv_div128 n p (inv, lim) = if n mod p =? 0 then Some (n / p) else None.
Proof.
  intros p inv lim n Hok Hn. pose proof (inv_ok_spec _ _ _ Hok) as [Hp [Hinv Hlim]]. unfold preinv_div128. cbn [fst snd]. cbv zeta.
  assert (E128 : 2 ^ 128 = 2 ^ 64 * 2 ^ 64) by reflexivity. rewrite E128 in Hn. clear E128.
  pose proof (preinv64_exact p inv lim) as P64. unfold preinv_div64 in P64. cbn [fst snd] in P64. cbv zeta in P64.
  set (B := 2 ^ 64) in *. assert (HB : 0 < B) by (unfold B; lia).
  pose proof (Z.div_mod n B ltac:(lia)) as En. pose proof (Z.mod_pos_bound n B ltac:(lia)) as Hn0.
  assert (Hn1 : 0 <= n / B < B) by (split; [apply Z.div_pos; lia | apply Z.div_lt_upper_bound; lia]).
  set (n0 := n mod B) in *. set (n1 := n / B) in *. set (q0 := (n0 * inv) mod B). assert (Hq0 : 0 <= q0 < B) by (apply Z.mod_pos_bound; lia).
  assert (Eq : (q0 * p) mod B = n0).
  { unfold q0. rewrite Z.mul_mod_idemp_l by lia. replace (n0 * inv * p) with (n0 * (p * inv)) by ring. rewrite <- Z.mul_mod_idemp_r by lia. rewrite Hinv, Z.mul_1_r. apply Z.mod_small. exact Hn0. }
  pose proof (Z.div_mod (q0 * p) B ltac:(lia)) as Ed. rewrite Eq in Ed. set (nr := q0 * p / B) in *.
  assert (Hnr : 0 <= nr) by (apply Z.div_pos; nia).
  assert (Hrp : rel_prime p B).
  { apply bezout_rel_prime. assert (K : exists k, p * inv = 1 + k * B) by (exists (p * inv / B); pose proof (Z.div_mod (p * inv) B ltac:(lia)); lia).
    destruct K as [k K]. apply (Bezout_intro p B 1 inv (- k)). lia. }
  assert (Ediff : n - q0 * p = B * (n1 - nr)) by lia.
  assert (Hdiv : (p | n) <-> (p | n1 - nr)).
  { split; intros D.
    - apply (Gauss p B); [|exact Hrp]. rewrite <- Ediff. apply Z.divide_sub_r; [exact D | apply Z.divide_factor_r].
    - replace n with ((n1 - nr) * B + q0 * p) by lia. apply Z.divide_add_r; [apply Z.divide_mul_l, D | apply Z.divide_factor_r]. }
  destruct (Z.ltb_spec n1 nr) as [L|L].
  - destruct (Z.eqb_spec (n mod p) 0) as [E|E]; [|reflexivity]. exfalso. apply mod0_divide in E; [|lia]. destruct (proj1 Hdiv E) as [c C]. destruct E as [d E].
    assert (c <= -1) by nia. assert (d = q0 + B * c) by nia. nia.
  - specialize (P64 (n1 - nr) Hok ltac:(lia)).
    assert (Em : ((n1 - nr) mod p =? 0) = (n mod p =? 0)).
    { destruct (Z.eqb_spec (n mod p) 0) as [E|E]; [apply Z.eqb_eq; apply mod0_divide; [lia|]; apply Hdiv; apply mod0_divide; [lia | exact E] |].
      apply Z.eqb_neq. intros C. apply E. apply mod0_divide; [lia|]. apply Hdiv. apply mod0_divide; [lia | exact C]. }
    rewrite Em in P64. destruct (((n1 - nr) * inv) mod B <=? lim); destruct (Z.eqb_spec (n mod p) 0) as [E|E]; try discriminate; [|reflexivity].
    injection P64 as ->. f_equal. apply Z.eqb_eq in Em. apply mod0_divide in Em; [|lia]. destruct Em as [c C]. rewrite C, Z.div_mul by lia.
    apply mod0_divide in E; [|lia]. destruct E as [d D]. rewrite D, Z.div_mul by lia. nia.
Qed.

(** ** Dividing out one prime *)
Section Divide.
Variables (f : feature) (fuel : Z).
Definition entry_ok (e : Z * (Z * Z)) : Prop := 2 <= fst e /\ match f with SmallTable => True | BigTable => inv_ok (fst e) (fst (snd e)) (snd (snd e)) = true end.

Lemma table_divide_spec : forall (wide : bool) e r, entry_ok e -> 1 <= r < (if wide then 2 ^ 128 else 2 ^ 64) -> Z.log2 r + 1 < fuel ->
  exists r' k, table_divide f fuel wide r e = Ret (r', k) /\ 0 <= k /\ r = fst e ^ k * r' /\ 1 <= r' /\ ~ (fst e | r').
Proof.
  intros wide [p [inv lim]] r [Hp Hok] Hr Hf. cbn [fst snd] in *.
  assert (G : forall body : Z * Z -> res (step (Z * Z) (Z * Z)), (forall x k, 1 <= x < (if wide then 2 ^ 128 else 2 ^ 64) -> body (x, k) = Ret (if x mod p =? 0 then Next (x / p, k + 1) else Done (x, k))) ->
     exists r' k, loop fuel body (r, 0) = Ret (r', k) /\ 0 <= k /\ r = p ^ k * r' /\ 1 <= r' /\ ~ (p | r')).
  { intros body Hb.
    assert (R : run False False (fun x => 0 <= snd x /\ r = p ^ snd x * fst x /\ 1 <= fst x /\ ~ (p | fst x)) (loop fuel body (r, 0))).
    { apply (run_loop_measure _ _ _ _ (fun x => 0 <= snd x /\ r = p ^ snd x * fst x /\ 1 <= fst x) _ (fun x => Z.log2 (fst x))).
      - cbn [fst snd]. rewrite Z.pow_0_r. lia.
      - cbn [fst]. pose proof (Z.log2_nonneg r). lia.
      - intros [x e] [He [Ex Hx]]. cbn [fst snd] in *. assert (Hxr : x <= r) by (pose proof (Z.pow_pos_nonneg p e ltac:(lia) He); nia).
        rewrite Hb by lia. destruct (Z.eqb_spec (x mod p) 0) as [E|E]; cbn [run fst snd].
        + apply mod0_divide in E; [|lia]. destruct E as [c E].
          assert (Ec : x / p = c) by (rewrite E; apply Z.div_mul; lia). rewrite Ec. assert (Hc : 1 <= c) by nia.
          split; [split; [lia|]; split; [|exact Hc]|].
          * rewrite Z.pow_add_r, Z.pow_1_r by lia. rewrite Ex, E. ring.
          * split; [apply Z.log2_nonneg|]. assert (L : 2 * c <= x) by nia. apply Z.log2_le_mono in L. rewrite Z.log2_double in L by lia. lia.
        + split; [lia|]. split; [exact Ex|]. split; [exact Hx|]. intros C. apply E. apply mod0_divide; [lia | exact C]. }
    apply run_total in R. destruct R as [[r' e] [E H]]. exists r', e. cbn [fst snd] in H. split; [exact E | exact H]. }
  unfold table_divide. destruct f; cbn [fst snd] in *.
  - apply G. intros x k Hx. destruct wide; [rewrite (preinv128_exact p inv lim x Hok ltac:(lia)) | rewrite (preinv64_exact p inv lim x Hok ltac:(lia))]; destruct (x mod p =? 0); reflexivity.
  - apply G. intros x k Hx. rewrite rem_ok by lia. cbn [bind]. destruct (x mod p =? 0); [rewrite div_ok by lia|]; reflexivity.
Qed.

Lemma table_loop_spec : forall (wide : bool) ts entries residual result,
  StronglySorted Z.lt (map fst entries) -> (forall e, In e entries -> entry_ok e) -> (forall p, In p (map fst entries) -> prime p) ->
  1 <= residual < (if wide then 2 ^ 128 else 2 ^ 64) -> Z.log2 residual + 1 < fuel -> wf_map result ->
  exists res rsd fac, table_loop f fuel wide ts entries residual result = Ret (res, rsd, fac) /\
    wf_map res /\ prod_powers res * rsd = prod_powers result * residual /\ 1 <= rsd /\ (rsd | residual) /\
    (forall k, In k (map fst res) -> In k (map fst result) \/ (In k (map fst entries) /\ ~ (k | rsd))) /\
    (fac = false -> (forall p, In p (map fst entries) -> ~ (p | rsd)) /\ (entries = [] \/ rsd <> 1)) /\
    (fac = true -> rsd = 1 \/ exists p T, In p (map fst entries) /\ ts = Some T /\ T < p /\ (forall q, In q (map fst entries) -> q < p -> ~ (q | rsd))).
Proof.
  intros wide ts. induction entries as [|en entries IH]; intros residual result Hs Hok Hpr Hr Hf Hwf.
  - exists result, residual, false. split; [reflexivity|]. split; [exact Hwf|]. split; [reflexivity|]. split; [lia|]. split; [apply Z.divide_refl|].
    split; [auto|]. split; [|discriminate]. intros _. split; [intros p []|left; reflexivity].
  - cbn [map] in Hs, Hpr |- *. inversion Hs as [|a l Hs' Hall]; subst. rewrite Forall_forall in Hall.
    set (p := fst en) in *. assert (Hp : prime p) by (apply Hpr; left; reflexivity). pose proof (prime_ge2 p Hp) as Hp2.
    cbn [table_loop]. fold p.
    destruct (match ts with Some T => T <? p | None => false end) eqn:Est.
    + exists result, residual, true. split; [reflexivity|]. split; [exact Hwf|]. split; [reflexivity|]. split; [lia|]. split; [apply Z.divide_refl|].
      split; [auto|]. split; [discriminate|]. intros _. right. destruct ts as [T|]; [|discriminate]. apply Z.ltb_lt in Est.
      exists p, T. split; [left; reflexivity|]. split; [reflexivity|]. split; [exact Est|]. intros q [<-|Hq] Hqp; [lia|]. specialize (Hall q Hq). lia.
    + destruct (table_divide_spec wide en residual (Hok en (or_introl eq_refl)) Hr Hf) as [r' [e [-> [He [Er [Hr1 Hnd]]]]]]. cbn [bind]. fold p in Er, Hnd.
      set (result' := if 0 <? e then bt_add result p e else result).
      assert (Hpe : 1 <= p ^ e) by (pose proof (Z.pow_pos_nonneg p e ltac:(lia) He); lia).
      assert (Hwf' : wf_map result') by (unfold result'; destruct (Z.ltb_spec 0 e); [apply bt_add_wf; [exact Hwf | lia] | exact Hwf]).
      assert (Hprod : prod_powers result' * r' = prod_powers result * residual).
      { unfold result'. destruct (Z.ltb_spec 0 e) as [He1|He1].
        - rewrite bt_add_prod by (auto; lia). rewrite Er. ring.
        - assert (e = 0) as -> by lia. rewrite Z.pow_0_r in Er. rewrite Er. ring. }
      assert (Hk1 : forall k, In k (map fst result') -> In k (map fst result) \/ k = p).
      { intros k Hk. unfold result' in Hk. destruct (0 <? e); [|auto]. apply bt_add_keys in Hk. tauto. }
      assert (Hdiv : (r' | residual)) by (exists (p ^ e); exact Er).
      assert (Hle : r' <= residual) by (apply Z.divide_pos_le; [lia | exact Hdiv]).
      destruct (Z.eqb_spec r' 1) as [E1|E1].
      * exists result', r', true. split; [reflexivity|]. split; [exact Hwf'|]. split; [exact Hprod|].
        split; [lia|]. split; [exact Hdiv|]. split.
        { intros k Hk. destruct (Hk1 k Hk) as [H| ->]; [auto|]. right. split; [left; reflexivity | exact Hnd]. }
        split; [discriminate|]. intros _. left. exact E1.
      * destruct (IH r' result') as [res [rsd [fac [E [A1 [A2 [A3 [A4 [A5 [A6 A7]]]]]]]]]].
        { exact Hs'. } { intros q Hq. apply Hok. right. exact Hq. } { intros q Hq. apply Hpr. right. exact Hq. } { lia. }
        { apply Z.log2_le_mono in Hle. lia. } { exact Hwf'. }
        assert (Hpn : ~ (p | rsd)) by (intros C; apply Hnd; eapply Z.divide_trans; [exact C | exact A4]).
        exists res, rsd, fac. split; [exact E|]. split; [exact A1|]. split; [rewrite A2; exact Hprod|].
        split; [exact A3|]. split; [eapply Z.divide_trans; eassumption|]. split.
        { intros k Hk. destruct (A5 k Hk) as [H|[H2 H3]].
          - destruct (Hk1 k H) as [H'| ->]; [auto|]. right. split; [left; reflexivity | exact Hpn].
          - right. split; [right; exact H2 | exact H3]. }
        split.
        { intros Hfac. destruct (A6 Hfac) as [B1 B2]. split; [intros q [<-|Hq]; [exact Hpn | apply B1, Hq]|]. right.
          destruct B2 as [B2|B2]; [|exact B2]. subst entries. cbn [table_loop] in E. injection E as _ <- _. exact E1. }
        { intros Hfac. destruct (A7 Hfac) as [H|[q [T [Hq1 [Hq2 [Hq3 Hq4]]]]]]; [auto|]. right. exists q, T. split; [right; exact Hq1|]. split; [exact Hq2|]. split; [exact Hq3|].
          intros x [<-|Hx] Hxq; [exact Hpn | apply Hq4; assumption]. }
Qed.
End Divide.

(** ** The table itself *)
Lemma table_keys : forall f, map fst (table_entries f) = tl (SMALL_PRIMES f).
Proof. intros [|]; vm_compute; reflexivity. Qed.
Lemma table_entry_ok : forall f e, In e (table_entries f) -> entry_ok f e.
Proof.
  intros f e He. unfold entry_ok. destruct f.
  - pose proof inv_table as T. rewrite forallb_forall in T. specialize (T e He). split; [|exact T]. destruct (inv_ok_spec _ _ _ T) as [T1 _]. lia.
  - split; [|exact I]. cbn [table_entries] in He. apply in_map_iff in He. destruct He as [p [<- Hp]]. cbn [fst].
    destruct (small_primes_list SmallTable) as [_ Hl]. assert (In p (SMALL_PRIMES SmallTable)) by (destruct (SMALL_PRIMES SmallTable); [exact Hp | right; exact Hp]).
    apply Hl in H. apply prime_ge2. tauto.
Qed.
Lemma table_sorted : forall f, StronglySorted Z.lt (map fst (table_entries f)).
Proof.
  intros f. rewrite table_keys. destruct (small_primes_list f) as [Hs _]. destruct (SMALL_PRIMES f); [exact Hs|]. inversion Hs; assumption.
Qed.
Lemma small_primes_head : forall f, exists l, SMALL_PRIMES f = 2 :: l.
Proof. intros [|]; eexists; reflexivity. Qed.
(** the table primes after 2 are the odd primes below the next prime *)
Lemma table_in : forall f p, In p (map fst (table_entries f)) <-> prime p /\ p < SMALL_PRIMES_NEXT f /\ p <> 2.
Proof.
  intros f p. rewrite table_keys. destruct (small_primes_list f) as [Hs Hl]. destruct (small_primes_head f) as [l El]. specialize (Hl p). rewrite El in *. cbn [tl In] in *.
  inversion Hs as [|a b Hs' Hall]; subst. rewrite Forall_forall in Hall. split.
  - intros H. assert (2 < p) by (apply Hall, H). destruct (proj1 Hl (or_intror H)) as [K1 K2]. split; [exact K1|]. split; [exact K2 | lia].
  - intros [H1 [H2 H3]]. destruct (proj2 Hl (conj H1 H2)) as [C|C]; [congruence | exact C].
Qed.
Lemma table_nonempty : forall f, table_entries f <> [].
Proof. intros [|] C; apply (f_equal (@length _)) in C; vm_compute in C; discriminate. Qed.

(** Cofactors: more than 1, below 2^w, with no prime factor in the table. *)
Definition cofactor (f : feature) (w n : Z) : Prop :=
  1 < n < 2 ^ w /\ forall p, prime p -> p < SMALL_PRIMES_NEXT f -> ~ (p | n).
Lemma cofactor_div : forall f w n d, cofactor f w n -> 1 < d -> (d | n) -> cofactor f w d.
Proof.
  intros f w n d [Hn Hp] Hd D. split.
  - apply Z.divide_pos_le in D; lia.
  - intros p Pp Hlt C. apply (Hp p Pp Hlt). eapply Z.divide_trans; eassumption.
Qed.
Lemma cofactor_ge : forall f w n, cofactor f w n -> SMALL_PRIMES_NEXT f <= n.
Proof.
  intros f w n [Hn Hp]. destruct (prime_divisor_exists n ltac:(lia)) as [p [Pp D]].
  destruct (Z.lt_ge_cases p (SMALL_PRIMES_NEXT f)) as [L|L]; [exfalso; exact (Hp p Pp L D)|]. apply Z.divide_pos_le in D; lia.
Qed.
Lemma small_coprime : forall n M, 0 < n -> (forall p, prime p -> (p | n) -> ~ (p | M)) -> Z.gcd n M = 1.
Proof.
  intros n M Hn H. set (g := Z.gcd n M). pose proof (Z.gcd_nonneg n M) as H0. fold g in H0.
  destruct (Z.eq_dec g 1) as [E|E]; [exact E|]. exfalso.
  assert (g <> 0) by (intros C; apply Z.gcd_eq_0_l in C; lia).
  destruct (prime_divisor_exists g ltac:(lia)) as [p [Pp D]].
  apply (H p Pp); (eapply Z.divide_trans; [exact D|]); [apply Z.gcd_divide_l | apply Z.gcd_divide_r].
Qed.
Lemma next_ge : forall f, 257 <= SMALL_PRIMES_NEXT f.
Proof. intros [|]; rewrite small_next; lia. Qed.
Lemma cofactor_odd : forall f w n, cofactor f w n -> Z.odd n = true.
Proof.
  intros f w n [Hn Hp]. destruct (Z.odd n) eqn:E; [reflexivity|]. exfalso. apply (Hp 2 prime_2); [pose proof (next_ge f); lia|].
  rewrite <- Z.negb_even in E. apply negb_false_iff in E. apply Z.even_spec in E. destruct E as [k ->]. exists k. ring.
Qed.
(** a cofactor below the square of the next prime is prime *)
Lemma cofactor_prime : forall f w n, cofactor f w n -> n < SMALL_PRIMES_NEXT f * SMALL_PRIMES_NEXT f -> prime n.
Proof.
  intros f w n [Hn Hp] H. apply prime_no_small_divisor; [lia|]. intros p Pp Hpp D. pose proof (prime_ge2 p Pp).
  apply (Hp p Pp); [|exact D]. apply Z.square_lt_simpl_nonneg; [pose proof (next_ge f); lia | lia].
Qed.
(** a cofactor accepted by the Miller-Rabin stage is accepted by is_prime64 *)
Lemma cofactor_accepted : forall f n, cofactor f 64 n -> forallb (z_sprp n) (miller_bases f n) = true -> z_is_prime64 f n = true.
Proof.
  intros f n Hc H. pose proof (cofactor_ge f 64 n Hc) as Hge. pose proof (cofactor_odd f 64 n Hc) as Ho. unfold z_is_prime64.
  pose proof (next_ge f). replace (n <? 2) with false by (symmetry; apply Z.ltb_ge; lia).
  rewrite <- Z.negb_odd, Ho. cbn [negb].
  replace (in_small_range f n) with false by (symmetry; unfold in_small_range; rewrite small_next in *; destruct f; apply Z.ltb_ge; lia).
  rewrite H, andb_true_r. apply Z.eqb_eq.
  assert (G : forall M, 0 < M -> (M | 2 * (3 * (5 * (7 * 11)))) -> Z.gcd n M = 1).
  { intros M HM DM. apply small_coprime; [lia|]. intros p Pp D1 D2. destruct Hc as [_ Hc]. apply (Hc p Pp); [|exact D1].
    assert (D' : (p | 2 * (3 * (5 * (7 * 11))))) by (eapply Z.divide_trans; eassumption). 
    assert (K : forall a, 0 < a <= 11 -> (p | a) -> p < SMALL_PRIMES_NEXT f) by (intros a Ha C; apply Z.divide_pos_le in C; lia).
    apply prime_div_mul in D'; [|exact Pp]. destruct D' as [D'|D']; [eapply K; [|exact D']; lia|].
    apply prime_div_mul in D'; [|exact Pp]. destruct D' as [D'|D']; [eapply K; [|exact D']; lia|].
    apply prime_div_mul in D'; [|exact Pp]. destruct D' as [D'|D']; [eapply K; [|exact D']; lia|].
    apply prime_div_mul in D'; [|exact Pp]. destruct D' as [D'|D']; eapply K; try exact D'; lia. }
  apply G; [pose proof (wheel_size_pos f); lia|].
  assert (E' : WHEEL_SIZE f = 30 \/ WHEEL_SIZE f = 2310) by (destruct f; [right | left]; reflexivity).
  destruct E' as [-> | ->]; [exists 77 | exists 1]; reflexivity.
Qed.

(** ** The divisor search *)
Lemma coprime_square : forall k n r, 0 < k -> 0 < n -> Z.gcd n k = 1 -> r * r = k * n -> exists s, s * s = n.
Proof.
  intros k n r Hk Hn Hg E. set (g := Z.gcd n r).
  assert (Hg0 : 0 < g) by (pose proof (Z.gcd_nonneg n r); assert (g <> 0) by (intros C; apply Z.gcd_eq_0_l in C; lia); unfold g in *; lia).
  destruct (Z.gcd_divide_l n r) as [a Ea]. destruct (Z.gcd_divide_r n r) as [b Eb]. fold g in Ea, Eb.
  assert (Hab : Z.gcd a b = 1).
  { assert (X : Z.gcd (a * g) (b * g) = Z.gcd a b * g) by (apply Z.gcd_mul_mono_r_nonneg; lia). rewrite <- Ea, <- Eb in X. fold g in X. nia. }
  assert (E2 : k * a = g * (b * b)) by (apply (Z.mul_reg_l _ _ g); [lia|]; rewrite Ea, Eb in E; nia).
  assert (D1 : (a | g)).
  { assert (X : (a | b * (b * g))) by (exists k; lia). apply Z.gauss in X; [|exact Hab]. apply Z.gauss in X; [exact X | exact Hab]. }
  assert (D2 : (g | a)).
  { apply (Z.gauss g k); [exists (b * b); lia|]. apply Z.divide_1_r_nonneg; [apply Z.gcd_nonneg|]. rewrite <- Hg. apply Z.gcd_greatest; [|apply Z.gcd_divide_r].
    eapply Z.divide_trans; [apply Z.gcd_divide_l | exists a; lia]. }
  assert (a = g) by (apply Z.divide_antisym_nonneg; [nia | lia | exact D1 | exact D2]). exists g. subst a. lia.
Qed.
Definition MULT_LCM : Z := 3 * (5 * (7 * (11 * (13 * (17 * 19))))).
Lemma multipliers_divide : forall k, In k SQUFOF_MULTIPLIERS -> 0 < k /\ (k | MULT_LCM).
Proof.
  assert (H : forallb (fun k => (0 <? k) && (MULT_LCM mod k =? 0)) SQUFOF_MULTIPLIERS = true) by (vm_compute; reflexivity).
  intros k Hk. rewrite forallb_forall in H. specialize (H k Hk). apply andb_true_iff in H. destruct H as [H1 H2]. apply Z.ltb_lt in H1. apply Z.eqb_eq in H2.
  split; [exact H1|]. apply mod0_divide; [lia | exact H2].
Qed.
Lemma cofactor_multiplier : forall f w n k, cofactor f w n -> In k SQUFOF_MULTIPLIERS -> Z.gcd n k = 1.
Proof.
  intros f w n k [Hn Hc] Hk. destruct (multipliers_divide k Hk) as [Hk0 Dk]. apply small_coprime; [lia|]. intros p Pp D1 D2. apply (Hc p Pp); [|exact D1].
  assert (D' : (p | MULT_LCM)) by (eapply Z.divide_trans; eassumption). unfold MULT_LCM in D'. pose proof (next_ge f).
  assert (K : forall a, 0 < a <= 19 -> (p | a) -> p < SMALL_PRIMES_NEXT f) by (intros a Ha C; apply Z.divide_pos_le in C; lia).
  do 5 (apply prime_div_mul in D'; [|exact Pp]; destruct D' as [D'|D']; [eapply K; [|exact D']; lia|]).
  apply prime_div_mul in D'; [|exact Pp]. destruct D' as [D'|D']; eapply K; try exact D'; lia.
Qed.

Lemma usize_ret : forall pf a b, run (pf = Debug) False (fun x => 0 <= x < 2 ^ 64) (mul_ pf usize a b).
Proof.
  intros pf a b. unfold mul_, wrapz, usize. destruct (in_rangeb (U 64) (a * b)) eqn:E.
  - apply in_rangeb_spec in E. cbn [in_range] in E. cbn [run]. exact E.
  - destruct pf; cbn [run]; [reflexivity|]. apply Z.mod_pos_bound. lia.
Qed.

Section Find.
Variables (f : feature) (pf : profile) (fuel w : Z).
Hypothesis (Hv : valid_ity (U w)).
Variable (target : Z).
Hypothesis (Hc : cofactor f w target).
Hypothesis (Hsq : ~ exists s, s * s = target).

Lemma squfof_multi_spec : forall ks ratio, (forall k, In k ks -> In k SQUFOF_MULTIPLIERS) ->
  run (pf = Debug) True (fun o => forall d, o = Some d -> proper_divisor d target) (squfof_multi f pf fuel (U w) ks target ratio).
Proof.
  destruct Hc as [Hn _]. induction ks as [|k ks IH]; intros ratio Hks; cbn [squfof_multi].
  - cbn [run]. discriminate.
  - assert (Hk : In k SQUFOF_MULTIPLIERS) by (apply Hks; left; reflexivity).
    assert (IH' : forall r, run (pf = Debug) True (fun o => forall d, o = Some d -> proper_divisor d target) (squfof_multi f pf fuel (U w) ks target r)) by (intros r; apply IH; intros q Hq; apply Hks; right; exact Hq).
    destruct (checked (U w) (target * k)) as [mt|] eqn:Ec; [|apply IH'].
    apply checked_inv in Ec. destruct Ec as [Em Hr]. destruct (multipliers_divide k Hk) as [Hk0 _].
    apply run_bind. eapply run_mono; [apply usize_ret | auto | tauto |]. intros r2 _. apply run_bind. eapply run_mono; [apply usize_ret | auto | tauto |]. intros mi Hmi. cbn beta in Hmi |- *.
    apply run_bind. eapply run_mono; [apply squfof_spec | tauto | auto |].
    + exact Hv. + lia. + nia. + rewrite Em; exact Hr. + exists k. lia. + lia.
    + intros [r C]. apply Hsq. apply (coprime_square k target r); [lia | lia | eapply cofactor_multiplier; eassumption | nia].
    + intros [[d|] i] [_ H]; cbn [fst] in H; [|apply IH']. cbn [run]. exact H.
Qed.

Lemma method_step_spec : forall st, 0 <= fst (fst st) -> 0 <= snd (fst st) ->
  run (pf = Debug) True (fun r => match r with Next st' => 0 <= fst (fst st') /\ 0 <= snd (fst st') | Done x => proper_divisor (fst x) target end) (method_step f pf fuel w target st).
Proof.
  intros [[i ratio] dr] Hi Hra. cbn [fst snd] in *. unfold method_step.
  assert (Hshl : forall x, 0 <= x < 2 ^ 128 -> run (pf = Debug) False (fun y => 0 <= y < 2 ^ 64) (shl_ pf usize ratio (bt_bits x / 6))).
  { intros x Hx. unfold shl_, usize. destruct ((0 <=? bt_bits x / 6) && (bt_bits x / 6 <? 64)); [|destruct pf]; cbn [run]; try reflexivity; apply Z.mod_pos_bound; lia. }
  pose proof Hc as [Hn _].
  assert (Hw : 2 ^ w <= 2 ^ 128) by (cbn [valid_ity] in Hv; apply Z.pow_le_mono_r; lia).
  apply run_bind. apply (run_mono _ (pf = Debug) True _ _ (fun x => forall d, fst x = Some d -> proper_divisor d target)).
  - destruct (i mod 3 =? 0).
    + destruct dr as [|x1 dr]; [exact I|]. cbn [draw bind]. destruct dr as [|x2 dr]; [exact I|]. cbn [draw bind].
      unfold reduced_new. rewrite (cofactor_odd f w target Hc). cbn [bind]. apply run_bind. eapply run_mono; [apply Hshl; lia | auto | tauto |]. intros mi Hmi. cbn beta in Hmi |- *.
      pose proof (Z.mod_pos_bound (x1 mod 2 ^ w) target ltac:(lia)) as B1. pose proof (Z.mod_pos_bound (x2 mod 2 ^ w) target ltac:(lia)) as B2.
      assert (Hin : in_range (U w) target) by (cbn [in_range]; lia).
      rewrite (pollard_rho_mint f pf (U w) target _ Hv Hin ltac:(lia) (cofactor_odd f w target Hc) _ mi B1).
      destruct (pollard_rho_spec f pf (U w) Hv target ((x1 mod 2 ^ w) mod target) ((x2 mod 2 ^ w) mod target) mi Hin ltac:(lia)) as [o [j [-> [_ H]]]]; [cbn [in_range]; lia | lia |].
      cbn [bind run fst]. destruct o as [d|]; cbn [option_map mint_val]; [exact H | discriminate].
    + destruct (i mod 3 =? 1).
      * set (mt := match checked (U w) (target * 480) with Some m => m | None => target end).
        assert (Hm : in_range (U w) mt /\ 1 <= mt /\ (target | mt)).
        { unfold mt. destruct (checked (U w) (target * 480)) as [m|] eqn:E.
          - apply checked_inv in E. destruct E as [-> E]. split; [exact E|]. split; [lia|]. apply Z.divide_factor_l.
          - cbn [in_range]. split; [lia|]. split; [lia | apply Z.divide_refl]. }
        destruct Hm as [M1 [M2 M3]]. apply run_bind. eapply run_mono; [apply Hshl; cbn [in_range] in M1; lia | auto | tauto |]. intros mi Hmi. cbn beta in Hmi |- *.
        apply run_bind. eapply run_mono; [apply one_line_run | tauto | tauto |]; try assumption; try lia.
        intros [o j] [_ H]. cbn [fst] in *. cbn [run fst]. exact H.
      * apply run_bind. eapply run_mono; [apply squfof_multi_spec; auto | auto | auto |]. intros o H. cbn [run fst]. exact H.
  - auto.
  - auto.
  - intros [o dr'] H. cbn [fst] in H. destruct o as [d|]; [cbn [run fst]; apply H; reflexivity|].
    assert (Hadd : run (pf = Debug) False (fun y => 0 <= y) (add_ pf usize i 1)).
    { unfold add_, wrapz. destruct (in_rangeb usize (i + 1)); [|destruct pf]; cbn [run]; try reflexivity; [lia|]. apply Z.mod_pos_bound. lia. }
    apply run_bind. eapply run_mono; [exact Hadd | auto | tauto |]. intros i' Hi'. cbn beta in Hi' |- *.
    apply run_bind. apply (run_mono _ (pf = Debug) False _ _ (fun y => 0 <= y)).
    + destruct (i' mod 3 =? 0); [|exact Hra]. eapply run_mono; [apply usize_ret | auto | auto |]. cbn beta. intros y Hy. lia.
    + auto. + tauto. + intros y Hy. cbn [run fst snd]. split; assumption.
Qed.

Lemma find_divisor_spec : forall dr, run (pf = Debug) True (fun x => proper_divisor (fst x) target) (find_divisor f pf fuel w target dr).
Proof.
  intros dr. unfold find_divisor. apply (run_loop _ _ _ _ (fun st => 0 <= fst (fst st) /\ 0 <= snd (fst st))).
  - cbn [fst snd]. lia.
  - exact I.
  - intros st [H1 H2]. apply method_step_spec; assumption.
Qed.
End Find.
