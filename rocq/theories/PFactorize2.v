(** * Proofs about factorize64 and factorize128 (src/nt_funcs.rs:143-497). *)
From Coq Require Import ZArith Znumtheory List Lia Bool Sorted.
From Verif Require Import Base Tables Spec Ext NT PBase PTables MInteger PInteger Ops POps MPrimality PSprp PropSprp MFactor MSieve MIsPrime PIsPrime MFactorize PLucas3 PFactor PFactor2 PFactorize.
Import ListNotations.
Local Open Scope Z_scope.

(** ** Factorization maps *)
Lemma bt_get_fresh : forall m k, ~ In k (map fst m) -> bt_get m k = None.
Proof.
  induction m as [|[k' v] m IH]; intros k H; cbn [bt_get map fst In] in *; [reflexivity|]. destruct (Z.eqb_spec k' k) as [E|E]; [exfalso; auto|]. apply IH. auto.
Qed.
Lemma prod_powers_app : forall a b, prod_powers (a ++ b) = prod_powers a * prod_powers b.
Proof. induction a as [|[p e] a IH]; intros b; cbn [app prod_powers]; [lia|]. rewrite IH. ring. Qed.
Lemma prod_powers_pos : forall m, (forall p e, In (p, e) m -> 1 <= p /\ 0 <= e) -> 1 <= prod_powers m.
Proof.
  induction m as [|[p e] m IH]; intros H; cbn [prod_powers]; [lia|].
  assert (1 <= prod_powers m) by (apply IH; intros; apply H; right; assumption). destruct (H p e (or_introl eq_refl)) as [H1 H2].
  pose proof (Z.pow_pos_nonneg p e ltac:(lia) H2). nia.
Qed.

Lemma merge_spec : forall new result, wf_map result -> (forall p e, In (p, e) new -> 1 <= e) ->
  wf_map (merge_factors result new) /\ prod_powers (merge_factors result new) = prod_powers result * prod_powers new /\
  (forall k, In k (map fst (merge_factors result new)) -> In k (map fst result) \/ In k (map fst new)).
Proof.
  induction new as [|[p e] new IH]; intros result Hwf He; cbn [merge_factors fold_left prod_powers map].
  - split; [exact Hwf|]. split; [lia | auto].
  - assert (He1 : 1 <= e) by (apply (He p e); left; reflexivity). cbn [fst snd].
    destruct (IH (bt_add result p e)) as [A [B C]]; [apply bt_add_wf; [exact Hwf | lia] | intros q x H; apply (He q x); right; exact H|].
    split; [exact A|]. split; [unfold merge_factors in B; rewrite B, bt_add_prod by (auto; lia); ring|].
    intros k Hk. destruct (C k Hk) as [H|H]; [|right; right; exact H]. apply bt_add_keys in H. destruct H as [H|H]; [right; left; auto | auto].
Qed.

(** Two prime factorizations of the same number are the same map. *)
Lemma sorted_head_min : forall (p q : Z) l, StronglySorted Z.lt (p :: l) -> In q l -> p < q.
Proof. intros p q l H Hq. inversion H as [|a b _ Hall]; subst. rewrite Forall_forall in Hall. apply Hall, Hq. Qed.
Lemma wf_map_tail : forall x m, wf_map (x :: m) -> wf_map m.
Proof. intros x m [H1 H2]. cbn [map] in H1. inversion H1; subst. inversion H2; subst. split; assumption. Qed.
Lemma prime_divides_map : forall m p, prime p -> Forall (fun pe => prime (fst pe)) m -> Forall (fun pe => 1 <= snd pe) m -> ((p | prod_powers m)) -> In p (map fst m).
Proof.
  intros m p Pp Hm He D. rewrite Forall_forall in Hm, He. apply prime_div_prod_powers in D; [|exact Pp | intros q e H; specialize (He _ H); cbn [snd] in He; lia].
  destruct D as [q [e [Hin D]]]. specialize (Hm _ Hin). cbn [fst] in Hm. apply prime_div_prime in D; [|exact Pp | exact Hm]. subst q.
  apply in_map_iff. exists (p, e). auto.
Qed.
Lemma pow_split_unique : forall p a b x y, 1 < p -> 0 <= a -> 0 <= b -> ~ (p | x) -> ~ (p | y) -> p ^ a * x = p ^ b * y -> a = b /\ x = y.
Proof.
  assert (G : forall p a b x y, 1 < p -> 0 <= a -> 0 <= b -> ~ (p | x) -> a < b -> p ^ a * x = p ^ b * y -> False).
  { intros p a b x y Hp Ha Hb Hx L E. replace b with (a + (b - a)) in E by lia. rewrite Z.pow_add_r in E by lia. rewrite <- Z.mul_assoc in E.
    apply Z.mul_reg_l in E; [|pose proof (Z.pow_pos_nonneg p a ltac:(lia) Ha); lia]. apply Hx. rewrite E.
    replace (b - a) with (1 + (b - a - 1)) by lia. rewrite Z.pow_add_r, Z.pow_1_r by lia. exists (p ^ (b - a - 1) * y). ring. }
  intros p a b x y Hp Ha Hb Hx Hy E. assert (Eab : a = b).
  { destruct (Z.lt_trichotomy a b) as [L|[L|L]]; [exfalso; eapply (G p a b x y); eassumption | exact L | exfalso; symmetry in E; eapply (G p b a y x); eassumption]. }
  split; [exact Eab|]. subst b. apply Z.mul_reg_l in E; [exact E|]. pose proof (Z.pow_pos_nonneg p a ltac:(lia) Ha). lia.
Qed.
Lemma not_key_not_div : forall p e m, prime p -> wf_map ((p, e) :: m) -> Forall (fun pe => prime (fst pe)) m -> ~ (p | prod_powers m).
Proof.
  intros p e m Pp Hw Hm D. pose proof (wf_map_tail _ _ Hw) as [_ He]. destruct Hw as [Hs _]. cbn [map fst] in Hs.
  apply prime_divides_map in D; auto. pose proof (sorted_head_min p p _ Hs D). lia.
Qed.
Theorem prime_factorization_unique : forall n m1 m2, prime_factorization n m1 -> prime_factorization n m2 -> m1 = m2.
Proof.
  intros n m1. revert n. induction m1 as [|[p a] m1 IH]; intros n m2 [W1 [P1 E1]] [W2 [P2 E2]].
  - destruct m2 as [|[q b] m2]; [reflexivity|]. exfalso. inversion P2 as [|x l Pq _]; subst x l. cbn [fst] in Pq. destruct W2 as [_ W2]. inversion W2 as [|x l Hb _]; subst x l. cbn [snd] in Hb.
    assert (D : (q | 1)). { cbn [prod_powers] in E1. rewrite E1, <- E2. cbn [prod_powers]. apply Z.divide_mul_l. replace b with (1 + (b - 1)) by lia. rewrite Z.pow_add_r, Z.pow_1_r by lia. apply Z.divide_factor_l. }
    apply Z.divide_1_r_nonneg in D; pose proof (prime_ge2 q Pq); lia.
  - destruct m2 as [|[q b] m2].
    + exfalso. inversion P1 as [|x l Pq _]; subst x l. cbn [fst] in Pq. destruct W1 as [_ W1]. inversion W1 as [|x l Hb _]; subst x l. cbn [snd] in Hb.
      assert (D : (p | 1)). { cbn [prod_powers] in E2. rewrite E2, <- E1. cbn [prod_powers]. apply Z.divide_mul_l. replace a with (1 + (a - 1)) by lia. rewrite Z.pow_add_r, Z.pow_1_r by lia. apply Z.divide_factor_l. }
      apply Z.divide_1_r_nonneg in D; pose proof (prime_ge2 p Pq); lia.
    + inversion P1 as [|x l Pp P1']; subst x l. inversion P2 as [|x l Pq P2']; subst x l. cbn [fst] in Pp, Pq.
      assert (A1 : 1 <= a) by (destruct W1 as [_ W1]; inversion W1; subst; assumption). assert (B1 : 1 <= b) by (destruct W2 as [_ W2]; inversion W2; subst; assumption).
      assert (Dp : (p | n)). { rewrite <- E1. cbn [prod_powers]. apply Z.divide_mul_l. replace a with (1 + (a - 1)) by lia. rewrite Z.pow_add_r, Z.pow_1_r by lia. apply Z.divide_factor_l. }
      assert (Dq : (q | n)). { rewrite <- E2. cbn [prod_powers]. apply Z.divide_mul_l. replace b with (1 + (b - 1)) by lia. rewrite Z.pow_add_r, Z.pow_1_r by lia. apply Z.divide_factor_l. }
      assert (K1 : In p (map fst ((q, b) :: m2))) by (apply prime_divides_map; [exact Pp | exact P2 | apply W2 | rewrite E2; exact Dp]).
      assert (K2 : In q (map fst ((p, a) :: m1))) by (apply prime_divides_map; [exact Pq | exact P1 | apply W1 | rewrite E1; exact Dq]).
      assert (Epq : p = q).
      { cbn [map fst In] in K1, K2. destruct K1 as [K1|K1]; [auto|]. destruct K2 as [K2|K2]; [auto|]. destruct W1 as [W1 _], W2 as [W2 _]. cbn [map fst] in W1, W2.
        pose proof (sorted_head_min _ _ _ W1 K2). pose proof (sorted_head_min _ _ _ W2 K1). lia. }
      subst q. pose proof (prime_ge2 p Pp). cbn [prod_powers] in E1, E2.
      destruct (pow_split_unique p a b (prod_powers m1) (prod_powers m2)) as [-> Em]; try lia.
      * eapply not_key_not_div; [exact Pp | exact W1 | exact P1'].
      * eapply not_key_not_div; [exact Pp | exact W2 | exact P2'].
      * f_equal. apply (IH (prod_powers m1)); [split; [eapply wf_map_tail; exact W1 | split; [exact P1' | reflexivity]] | split; [eapply wf_map_tail; exact W2 | split; [exact P2' | symmetry; exact Em]]].
Qed.

(** ** factorize64_advanced *)
Section Adv64.
Variables (f : feature) (pf : profile) (fuel P : Z).
Hypothesis (HP : 1 <= P < 2 ^ 128).

Definition entry64 (x : Z * Z) : Prop := cofactor f 64 (fst x) /\ 1 <= snd x.
Definition adv_inv (st : list (Z * Z) * list (Z * Z) * draws) : Prop :=
  let '(todo, factored, _) := st in
  Forall entry64 todo /\ Forall (fun x => entry64 x /\ z_is_prime64 f (fst x) = true) factored /\
  prod_powers todo * prod_powers factored = P.
Definition adv_done (x : list (Z * Z) * draws) : Prop :=
  Forall (fun x => entry64 x /\ z_is_prime64 f (fst x) = true) (fst x) /\ prod_powers (fst x) = P.

Lemma entry64_pos : forall l, Forall entry64 l -> 1 <= prod_powers l.
Proof.
  intros l H. rewrite Forall_forall in H. apply prod_powers_pos. intros p e Hin. destruct (H _ Hin) as [[A _] B]. cbn [fst snd] in *. lia.
Qed.
Lemma exponent_small : forall n e rest, 2 <= n -> 1 <= e -> 1 <= rest -> n ^ e * rest = P -> e < 128.
Proof.
  intros n e rest Hn He Hr E. assert (n ^ e <= P) by (pose proof (Z.pow_pos_nonneg n e ltac:(lia) ltac:(lia)); nia).
  destruct (Z.lt_ge_cases e 128) as [L|L]; [exact L|]. exfalso.
  assert (2 ^ 128 <= n ^ e); [|lia]. transitivity (2 ^ e); [apply Z.pow_le_mono_r; lia | apply Z.pow_le_mono_l; lia].
Qed.

(** what one pass does with its target *)
Lemma adv64_step_spec : forall st, adv_inv st -> run (pf = Debug) True (fun r => match r with Next st' => adv_inv st' | Done x => adv_done x end) (adv64_step f pf fuel st).
Proof.
  intros [[todo factored] dr] [Ht [Hf E]]. unfold adv64_step. destruct todo as [|[n e] todo].
  - cbn [run]. split; cbn [fst]; [exact Hf|]. cbn [prod_powers] in E. lia.
  - inversion Ht as [|x l [Hc He] Ht']; subst x l. cbn [fst snd] in Hc, He. cbn [prod_powers] in E.
    pose proof (cofactor_odd f 64 n Hc) as Ho. pose proof (cofactor_ge f 64 n Hc) as Hge. pose proof (next_ge f) as Hnx. pose proof Hc as [Hn _].
    rewrite (miller64_law f pf n ltac:(lia) Ho). cbn [bind].
    pose proof (entry64_pos todo Ht') as T1.
    assert (F1 : 1 <= prod_powers factored) by (apply entry64_pos; eapply Forall_impl; [|exact Hf]; cbn beta; tauto).
    assert (He' : e < 128) by (apply (exponent_small n e (prod_powers todo * prod_powers factored)); [lia | lia | nia | lia]).
    destruct (forallb (z_sprp n) (miller_bases f n)) eqn:Em.
    { cbn [run adv_inv]. split; [exact Ht'|]. split.
      - apply Forall_app. split; [exact Hf|]. constructor; [|constructor]. split; [split; assumption|]. apply cofactor_accepted; assumption.
      - rewrite prod_powers_app. cbn [prod_powers]. lia. }
    destruct (sqrt_exact_lawful f pf u64 n) as [o [-> Hr]]; [cbn [in_range u64]; lia | lia|]. cbn [bind]. destruct o as [d|]; cbn [exact_root] in Hr.
    { destruct Hr as [Hd0 Hd]. rewrite mul_ok by (cbn [usize in_range]; lia). cbn [bind run adv_inv].
      assert (Hd1 : 1 < d) by (rewrite Z.pow_2_r in Hd; nia).
      split; [constructor; [|exact Ht'] | split; [exact Hf|]].
      - split; cbn [fst snd]; [|lia]. apply (cofactor_div f 64 n d Hc Hd1). exists d. rewrite <- Hd. ring.
      - cbn [prod_powers]. replace (e * 2) with (2 * e) by ring. rewrite Z.pow_mul_r, Hd by lia. exact E. }
    destruct (nth_root_exact_nonneg n 3) as [o [Eo Hr3]]; [lia | lia|]. cbn [cbrt_exact u64]. unfold cbrt_exact_prim. rewrite Eo. cbn [bind]. destruct o as [d|].
    { destruct Hr3 as [Hd0 Hd]. rewrite mul_ok by (cbn [usize in_range]; lia). cbn [bind run adv_inv].
      assert (Ed : d ^ 3 = d * d * d) by ring. assert (Hd1 : 1 < d) by nia.
      split; [constructor; [|exact Ht'] | split; [exact Hf|]].
      - split; cbn [fst snd]; [|lia]. apply (cofactor_div f 64 n d Hc Hd1). exists (d * d). rewrite <- Hd. exact Ed.
      - cbn [prod_powers]. replace (e * 3) with (3 * e) by ring. rewrite Z.pow_mul_r, Hd by lia. exact E. }
    assert (Hns : ~ exists s, s * s = n).
    { intros [s Hs]. apply (Hr (Z.abs s)); [lia|]. rewrite Z.pow_2_r. nia. }
    apply run_bind. eapply run_mono; [apply (find_divisor_spec f pf fuel 64 ltac:(cbn; lia) n Hc Hns) | auto | auto |].
    intros [d dr'] [D1 [D2 D3]]. cbn [fst] in *. rewrite div_ok by lia. cbn [bind run adv_inv].
    destruct D3 as [c D3]. assert (Ec : n / d = c) by (rewrite D3; apply Z.div_mul; lia). rewrite Ec. assert (Hc1 : 1 < c) by nia.
    split; [constructor; [|constructor; [|exact Ht']] | split; [exact Hf|]].
    + split; cbn [fst snd]; [|exact He]. apply (cofactor_div f 64 n c Hc Hc1). exists d. lia.
    + split; cbn [fst snd]; [|exact He]. apply (cofactor_div f 64 n d Hc D1). exists c. lia.
    + cbn [prod_powers]. rewrite <- E, D3, Z.pow_mul_l. ring.
Qed.
Lemma adv64_spec : forall todo dr, Forall entry64 todo -> prod_powers todo = P -> run (pf = Debug) True adv_done (factorize64_advanced f pf fuel todo dr).
Proof.
  intros todo dr H E. unfold factorize64_advanced. apply (run_loop _ _ _ _ adv_inv).
  - cbn [adv_inv prod_powers]. split; [exact H|]. split; [constructor | lia].
  - exact I.
  - intros st Hst. apply adv64_step_spec, Hst.
Qed.
End Adv64.

(** ** factorize64 *)
Definition good_keys (f : feature) (m : list (Z * Z)) : Prop :=
  forall k, In k (map fst m) -> z_is_prime64 f k = true /\ (k < SMALL_PRIMES_NEXT f * SMALL_PRIMES_NEXT f -> prime k).

Lemma start_map : forall n, 1 <= n -> let f2 := ztz n in let r := if f2 =? 0 then [] else [(2, f2)] in
  wf_map r /\ prod_powers r = 2 ^ f2 /\ (forall k, In k (map fst r) -> k = 2).
Proof.
  intros n Hn f2 r. destruct (ztz_spec n ltac:(lia)) as [A _]. fold f2 in A. unfold r. destruct (Z.eqb_spec f2 0) as [E|E].
  - rewrite E. split; [apply wf_nil|]. split; [reflexivity | intros k []].
  - split; [split; [cbn [map fst]; constructor; constructor | constructor; [cbn [snd]; lia | constructor]]|].
    split; [cbn [prod_powers]; lia|]. intros k [<-|[]]. reflexivity.
Qed.

Lemma odd_part : forall n, 1 <= n -> exists r, Z.shiftr n (ztz n) = r /\ n = 2 ^ ztz n * r /\ 1 <= r <= n /\ Z.odd r = true.
Proof.
  intros n Hn. destruct (ztz_spec n ltac:(lia)) as [A [m [E [Ho Hm]]]]. exists m.
  assert (0 < 2 ^ ztz n) by (apply Z.pow_pos_nonneg; lia). repeat split; try assumption; try nia.
  rewrite Z.shiftr_div_pow2 by exact A. rewrite E at 1. rewrite Z.mul_comm. apply Z.div_mul. lia.
Qed.
Lemma table_stage : forall f fuel (wide : bool) ts n, 1 <= n < (if wide then 2 ^ 128 else 2 ^ 64) -> 129 < fuel ->
  exists res rsd fac, table_loop f fuel wide ts (table_entries f) (Z.shiftr n (ztz n)) (if ztz n =? 0 then [] else [(2, ztz n)]) = Ret (res, rsd, fac) /\
    wf_map res /\ prod_powers res * rsd = n /\ 1 <= rsd /\
    (forall k, In k (map fst res) -> prime k /\ k < SMALL_PRIMES_NEXT f /\ ~ (k | rsd)) /\
    (fac = false -> cofactor f (if wide then 128 else 64) rsd) /\
    (fac = true -> rsd = 1 \/ exists T, ts = Some T /\ forall q, prime q -> q <= T -> ~ (q | rsd)).
Proof.
  intros f fuel wide ts n Hn Hf. destruct (odd_part n ltac:(lia)) as [r [-> [En [Hr Ho]]]].
  destruct (start_map n ltac:(lia)) as [W0 [P0 K0]]. cbv zeta in W0, P0, K0. set (r0 := if ztz n =? 0 then [] else [(2, ztz n)]) in *.
  assert (Hpos : 0 < (if wide then 2 ^ 128 else 2 ^ 64) /\ (if wide then 2 ^ 128 else 2 ^ 64) <= 2 ^ 128) by (destruct wide; lia).
  assert (Hlog : Z.log2 r + 1 < fuel) by (assert (Z.log2 r < 128) by (apply Z.log2_lt_pow2; lia); lia).
  destruct (table_loop_spec f fuel wide ts (table_entries f) r r0) as [res [rsd [fac [E [A1 [A2 [A3 [A4 [A5 [A6 A7]]]]]]]]]].
  - apply table_sorted. - apply table_entry_ok. - intros p Hp. apply table_in in Hp. tauto. - lia. - exact Hlog. - exact W0.
  - assert (N2 : forall p, prime p -> (p | rsd) -> p <> 2).
    { intros p Pp D ->. assert (D2 : (2 | r)) by (eapply Z.divide_trans; eassumption). destruct D2 as [c D2]. rewrite D2, Z.mul_comm, Z.odd_mul in Ho. discriminate. }
    exists res, rsd, fac. split; [exact E|]. split; [exact A1|]. split; [rewrite A2, P0; lia|]. split; [exact A3|]. split; [|split].
    + intros k Hk. destruct (A5 k Hk) as [H|[H H']].
      * rewrite (K0 k H). split; [apply prime_2|]. split; [pose proof (next_ge f); lia|]. intros D. exact (N2 2 prime_2 D eq_refl).
      * apply table_in in H. tauto.
    + intros Hfac. destruct (A6 Hfac) as [B1 B2]. destruct B2 as [B2|B2]; [exfalso; apply (table_nonempty f B2)|].
      assert (rsd <= r) by (apply Z.divide_pos_le; [lia | exact A4]). split; [destruct wide; lia|].
      intros p Pp Hlt D. apply (B1 p); [|exact D]. apply table_in. split; [exact Pp|]. split; [exact Hlt | apply N2; assumption].
    + intros Hfac. destruct (A7 Hfac) as [H|[p [T [H1 [H2 [H3 H4]]]]]]; [left; exact H|]. right. exists T. split; [exact H2|].
      intros q Pq Hq D. apply (H4 q); [|lia | exact D]. apply table_in in H1. apply table_in. split; [exact Pq|]. split; [lia | apply N2; assumption].
Qed.

Section F64.
Variables (f : feature) (pf : profile) (fuel : Z).
Hypothesis (Hfuel : 129 < fuel).

(** the outcome of factorize64 in terms of the residual left by the table *)
Lemma factorize64_cases : forall n dr, 1 <= n < 2 ^ 64 ->
  (Z.odd n = true /\ z_is_prime64 f n = true /\ factorize64 f pf fuel n dr = Ret ([(n, 1)], dr)) \/
  (~ (Z.odd n = true /\ z_is_prime64 f n = true) /\ exists m, prime_factorization n m /\ factorize64 f pf fuel n dr = Ret (m, dr)) \/
  (~ (Z.odd n = true /\ z_is_prime64 f n = true) /\ exists res rsd, wf_map res /\ prod_powers res * rsd = n /\ (forall k, In k (map fst res) -> prime k /\ k < SMALL_PRIMES_NEXT f /\ ~ (k | rsd)) /\ cofactor f 64 rsd /\
     factorize64 f pf fuel n dr = ('(fs, dr') <- factorize64_advanced f pf fuel [(rsd, 1)] dr ;; Ret (merge_factors res fs, dr'))).
Proof.
  intros n dr Hn. unfold factorize64. unfold bt_trailing_zeros. replace (n =? 0) with false by (symmetry; apply Z.eqb_neq; lia). cbv zeta.
  assert (Hpr : (if ztz n =? 0 then is_prime64 f pf n else Ret false) = Ret (Z.odd n && z_is_prime64 f n)).
  { destruct (odd_part n ltac:(lia)) as [r [_ [En [Hr Ho]]]]. destruct (ztz_spec n ltac:(lia)) as [A _]. destruct (Z.eqb_spec (ztz n) 0) as [E|E].
    - rewrite is_prime64_law by lia. rewrite E, Z.pow_0_r, Z.mul_1_l in En. rewrite En, Ho. reflexivity.
    - replace (Z.odd n) with false; [reflexivity|]. symmetry. rewrite En, Z.odd_mul. replace (ztz n) with (1 + (ztz n - 1)) by lia. rewrite Z.pow_add_r, Z.pow_1_r, Z.odd_mul by lia. reflexivity. }
  rewrite Hpr. cbn [bind]. destruct (Z.odd n && z_is_prime64 f n) eqn:Ea.
  { left. apply andb_true_iff in Ea. tauto. }
  right. assert (Hna : ~ (Z.odd n = true /\ z_is_prime64 f n = true)) by (intros C; apply andb_true_iff in C; congruence).
  unfold ext_sqrt. assert (Hsq : Z.sqrt n < 2 ^ 32) by (apply Z.sqrt_lt_square; lia). pose proof (Z.sqrt_nonneg n).
  rewrite add_ok by (cbn [u64 in_range]; lia). cbn [bind].
  assert (Hin : in_range u64 n) by (cbn [u64 in_range]; lia). destruct (shr_ztz pf u64 n Hin ltac:(lia)) as [-> _]. cbn [bind].
  destruct (table_stage f fuel false (Some (Z.sqrt n + 1)) n Hn Hfuel) as [res [rsd [fac [-> [W [P [R [K [F T]]]]]]]]]. cbn [bind].
  destruct fac.
  - left. split; [exact Hna|]. destruct (T eq_refl) as [E1|[T' [ET HT]]].
    + exists res. rewrite E1, Z.mul_1_r in P. rewrite E1. cbn [Z.eqb Pos.eqb]. split; [|reflexivity]. split; [exact W|]. split; [|exact P].
      apply Forall_forall. intros pe Hpe. apply K. apply in_map, Hpe.
    + injection ET as <-. destruct (Z.eqb_spec rsd 1) as [E1|E1].
      * exists res. rewrite E1, Z.mul_1_r in P. split; [|reflexivity]. split; [exact W|]. split; [|exact P].
        apply Forall_forall. intros pe Hpe. apply K. apply in_map, Hpe.
      * assert (Hle : rsd <= n) by (assert (1 <= prod_powers res); [|nia]; apply prod_powers_pos; intros p e Hin'; destruct (K p (in_map fst _ _ Hin')) as [Kp _]; pose proof (prime_ge2 p Kp); destruct W as [_ W]; rewrite Forall_forall in W; specialize (W _ Hin'); cbn [snd] in W; lia).
        assert (Pr : prime rsd).
        { apply prime_no_small_divisor; [lia|]. intros p Pp Hpp D. apply (HT p Pp); [|exact D]. pose proof (prime_ge2 p Pp).
          assert (p <= Z.sqrt n); [|lia]. apply Z.sqrt_le_square; lia. }
        assert (Hfresh : bt_get res rsd = None).
        { apply bt_get_fresh. intros C. destruct (K rsd C) as [_ [_ C']]. apply C', Z.divide_refl. }
        exists (bt_insert res rsd 1). split; [|reflexivity]. split; [|split].
        { destruct W as [W1 W2]. split; [apply bt_insert_sorted, W1|]. apply bt_insert_values; [cbn [snd]; lia | exact W2]. }
        { apply Forall_forall. intros pe Hpe. assert (Hk : In (fst pe) (map fst (bt_insert res rsd 1))) by (apply in_map, Hpe). apply bt_insert_keys in Hk. destruct Hk as [->|Hk]; [exact Pr | apply K, Hk]. }
        { rewrite bt_insert_new_prod by exact Hfresh. rewrite Z.pow_1_r. lia. }
  - right. split; [exact Hna|]. exists res, rsd. split; [exact W|]. split; [exact P|]. split; [exact K|]. split; [exact (F eq_refl)|]. reflexivity.
Qed.

Lemma prime_map_good : forall n m, prime_factorization n m -> good_keys f m.
Proof.
  intros n m [_ [H _]] k Hk. rewrite Forall_forall in H. apply in_map_iff in Hk. destruct Hk as [pe [<- Hpe]]. specialize (H _ Hpe). split; [apply z_is_prime64_complete, H | auto].
Qed.
Lemma accepted_prime : forall n, z_is_prime64 f n = true -> (n < SMALL_PRIMES_NEXT f - 1 -> prime n).
Proof. intros n H L. apply z_is_prime64_sound_partial in H. apply Z.ltb_lt in L. rewrite L in H. exact H. Qed.

Theorem factorize64_spec : forall n dr, 1 <= n < 2 ^ 64 ->
  run (pf = Debug) True (fun x => wf_map (fst x) /\ prod_powers (fst x) = n /\ (forall k, In k (map fst (fst x)) -> z_is_prime64 f k = true /\ (k <> n -> k < SMALL_PRIMES_NEXT f * SMALL_PRIMES_NEXT f -> prime k))) (factorize64 f pf fuel n dr).
Proof.
  intros n dr Hn. destruct (factorize64_cases n dr Hn) as [[Ho [Ha ->]]|[[_ [m [Hm ->]]]|[_ [res [rsd [W [P [K [C ->]]]]]]]]].
  - cbn [run fst map prod_powers]. split; [split; [cbn [map fst]; constructor; constructor | constructor; [cbn [snd]; lia | constructor]]|]. split; [rewrite Z.pow_1_r; lia|].
    intros k [<-|[]]. split; [exact Ha|]. congruence.
  - cbn [run fst]. pose proof (prime_map_good n m Hm) as G. destruct Hm as [W [_ P]]. split; [exact W|]. split; [exact P|]. intros k Hk. destruct (G k Hk). auto.
  - apply run_bind. pose proof C as [C1 _]. eapply run_mono; [apply (adv64_spec f pf fuel rsd ltac:(lia)) | auto | auto |].
    + constructor; [|constructor]. split; cbn [fst snd]; [exact C | lia].
    + cbn [prod_powers]. rewrite Z.pow_1_r. lia.
    + intros [fs dr'] [D1 D2]. cbn [fst] in *. cbn [run fst]. rewrite Forall_forall in D1.
      destruct (merge_spec fs res W) as [M1 [M2 M3]]. { intros p e Hin. destruct (D1 _ Hin) as [[_ H] _]. exact H. }
      split; [exact M1|]. split; [rewrite M2, D2; exact P|]. intros k Hk. destruct (M3 k Hk) as [H|H].
      * destruct (K k H) as [Pk _]. split; [apply z_is_prime64_complete, Pk | auto].
      * apply in_map_iff in H. destruct H as [pe [<- Hpe]]. destruct (D1 _ Hpe) as [[Hco _] Hacc]. split; [exact Hacc|]. intros _ L. eapply cofactor_prime; eassumption.
Qed.

(** Nothing is left to chance when the table leaves 1 or a prime. *)
Lemma adv64_prime : forall r dr, prime r -> cofactor f 64 r -> factorize64_advanced f pf fuel [(r, 1)] dr = Ret ([(r, 1)], dr).
Proof.
  intros r dr Pr C. unfold factorize64_advanced, loop. replace fuel with (fuel - 2 + 1 + 1) by lia. rewrite iter_succ by lia. cbn [adv64_step].
  pose proof (cofactor_odd f 64 r C) as Ho. pose proof (cofactor_ge f 64 r C) as Hge. pose proof (next_ge f) as Hnx. pose proof C as [Hn _].
  rewrite (miller64_law f pf r ltac:(lia) Ho). cbn [bind].
  assert (Hall : forallb (z_sprp r) (miller_bases f r) = true).
  { apply forallb_forall. intros a Ha. apply z_sprp_spec; [lia | exact Ho|]. apply prime_strong_prp; [exact Pr | exact Ho |]. apply (miller_bases_coprime f); [exact Pr | lia | exact Ha]. }
  rewrite Hall. cbn [bind kbind]. rewrite iter_succ by lia. cbn [adv64_step bind kbind app]. reflexivity.
Qed.
Theorem factorize64_total : forall n s q dr, 1 <= n < 2 ^ 64 -> n = s * q -> 1 <= s -> (forall p, prime p -> (p | s) -> p < SMALL_PRIMES_NEXT f) -> q = 1 \/ prime q ->
  (is_prime64 f pf n = Ret true -> prime n) -> exists m, factorize64 f pf fuel n dr = Ret (m, dr) /\ prime_factorization n m.
Proof.
  intros n s q dr Hn En Hs Hsm Hq Hsound. destruct (factorize64_cases n dr Hn) as [[Ho [Ha ->]]|[[_ [m [Hm ->]]]|[Hna [res [rsd [W [P [K [C ->]]]]]]]]].
  - exists [(n, 1)]. split; [reflexivity|]. assert (Pn : prime n) by (apply Hsound; rewrite is_prime64_law, Ha by lia; reflexivity).
    split; [split; [cbn [map fst]; constructor; constructor | constructor; [cbn [snd]; lia | constructor]]|]. split; [constructor; [exact Pn | constructor]|]. cbn [prod_powers]. rewrite Z.pow_1_r. lia.
  - exists m. auto.
  - pose proof C as [C1 C2]. assert (Hg : Z.gcd rsd s = 1).
    { apply small_coprime; [lia|]. intros p Pp D1 D2. apply (C2 p Pp (Hsm p Pp D2) D1). }
    assert (D : (rsd | q)). { apply (Z.gauss _ s); [|exact Hg]. exists (prod_powers res). lia. }
    destruct Hq as [->|Pq]; [apply Z.divide_1_r_nonneg in D; lia|].
    assert (rsd = q) as ->. { destruct (prime_divisors q Pq rsd D) as [H|[H|[H|H]]]; pose proof (prime_ge2 q Pq); lia. }
    rewrite (adv64_prime q dr Pq C). cbn [bind]. exists (merge_factors res [(q, 1)]). split; [reflexivity|].
    destruct (merge_spec [(q, 1)] res W) as [M1 [M2 M3]]. { intros p e [H|[]]. injection H as _ <-. lia. }
    split; [exact M1|]. split; [|rewrite M2; cbn [prod_powers]; rewrite Z.pow_1_r; lia].
    apply Forall_forall. intros pe Hpe. assert (Hk : In (fst pe) (map fst (merge_factors res [(q, 1)]))) by (apply in_map, Hpe).
    destruct (M3 _ Hk) as [H|[H|[]]]; [apply K, H|]. cbn [fst] in H. rewrite <- H. exact Pq.
Qed.
End F64.
