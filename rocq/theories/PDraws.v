(** * Random draws with which factorize64 and factorize128 (src/nt_funcs.rs:143-497) find every divisor
    they look for at the first attempt. *)
From Coq Require Import ZArith Znumtheory List Lia Bool Sorted.
From Verif Require Import Base Tables Spec Ext NT PBase PTables MInteger PInteger Ops POps MPrimality MTraits PSprp PropSprp MFactor MSieve MIsPrime NTLucas NTResidue PLucas PLucas2 PLucas3 PropMint PIsPrime PIsPrime2 MFactorize PFactor PFactor2 PFactorize PFactorize2 PFactorize3 PropLucas.
Import ListNotations.
Local Open Scope Z_scope.

(** ** Pollard's rho started at 0 with a divisor as offset *)
Lemma rho_lucky : forall f pf t n d mi, valid_ity t -> in_range t n -> proper_divisor d n -> 1 <= mi < 2 ^ 64 ->
  pollard_rho pf (uops f pf t) n 0 d mi = Ret (Some d, 1).
Proof.
  intros f pf t n d mi Ht Hn [D1 [D2 D3]] Hmi. unfold pollard_rho, o_one, o_const. cbn [uops o_from o_rem].
  rewrite from_prim_ok by (apply valid_one, Ht). cbn [unwrap bind]. rewrite rem_ok by lia. cbn [bind]. rewrite (Z.mod_small 1 n) by lia.
  replace mi with (mi - 1 + 1) by lia. rewrite iter_succ by lia.
  assert (E : rho_step pf (uops f pf t) n d {| r_a := 0; r_b := 0; r_z := 1; r_i := 0; r_j := 1; r_s := 0; r_bt := false |} = Ret (Done (Some d, 1))).
  { unfold rho_step. cbn [r_a r_b r_z r_i r_j r_s r_bt]. rewrite add_ok by (cbn [usize in_range]; lia). cbn [bind].
    cbn [uops o_sqm o_addm o_eqb o_ltb o_sub o_mulm o_is_zero o_rem o_gcd o_is_one]. unfold ext_sqm, ext_addm, ext_mulm.
    rewrite rem_ok by lia. cbn [bind]. rewrite rem_ok by lia. cbn [bind].
    change (0 * 0) with 0. rewrite Z.mod_0_l by lia. rewrite (Z.mod_small (0 + d) n) by lia. change (0 + d) with d.
    replace (d =? 0) with false by (symmetry; apply Z.eqb_neq; lia). replace (d <? 0) with false by (symmetry; apply Z.ltb_ge; lia).
    rewrite sub_ok by (replace (d - 0) with d by lia; eapply in_range_le; [|exact Hn]; lia). cbn [bind]. rewrite rem_ok by lia. cbn [bind].
    replace (1 * (d - 0)) with d by lia. rewrite (Z.mod_small d n) by lia.
    replace (d =? 0) with false by (symmetry; apply Z.eqb_neq; lia). change (0 + 1 =? 1) with true. cbn [orb bind]. unfold ext_gcd.
    assert (Eg : Z.gcd d n = d) by (destruct D3 as [c ->]; rewrite Z.mul_comm; apply Z.gcd_mul_diag_l; lia). rewrite Eg.
    replace (d =? 1) with false by (symmetry; apply Z.eqb_neq; lia). cbn [bind]. replace (d =? n) with false by (symmetry; apply Z.eqb_neq; lia). reflexivity. }
  rewrite E. reflexivity.
Qed.

Lemma proper_nonprime : forall n, 2 <= n -> ~ prime n -> exists d, proper_divisor d n.
Proof.
  intros n Hn Np. destruct (prime_dec n) as [Pn|_]; [contradiction|]. destruct (not_prime_divide n ltac:(lia) Np) as [d [Hd D]]. exists d. split; [lia|]. split; [lia | exact D].
Qed.

Section Find.
Variables (f : feature) (pf : profile) (fuel w : Z).
Hypothesis (Hv : valid_ity (U w)).

Lemma method_lucky : forall target d i ratio mi x1 x2 dr, cofactor f w target -> proper_divisor d target -> i mod 3 = 0 ->
  shl_ pf usize ratio (bt_bits target / 6) = Ret mi -> 1 <= mi < 2 ^ 64 -> (x1 mod 2 ^ w) mod target = 0 -> (x2 mod 2 ^ w) mod target = d ->
  method_step f pf fuel w target (i, ratio, x1 :: x2 :: dr) = Ret (Done (d, dr)).
Proof.
  intros target d i ratio mi x1 x2 dr Hc Hd Hi Hsh Hmi E1 E2. pose proof Hc as [Hn _]. unfold method_step. rewrite Hi. cbn [Z.eqb draw bind].
  unfold reduced_new. rewrite (cofactor_odd f w target Hc). cbn [bind]. rewrite Hsh. cbn [bind].
  assert (Hin : in_range (U w) target) by (cbn [in_range]; lia). rewrite E1, E2.
  rewrite (pollard_rho_mint f pf (U w) target d Hv Hin ltac:(lia) (cofactor_odd f w target Hc) 0 mi ltac:(lia)).
  rewrite (rho_lucky f pf (U w) target d mi Hv Hin Hd Hmi). cbn [bind option_map mint_val]. reflexivity.
Qed.

Lemma first_shl : forall x, 1 <= x < 2 ^ 128 -> exists mi, shl_ pf usize 1 (bt_bits x / 6) = Ret mi /\ 1 <= mi < 2 ^ 64.
Proof.
  intros x Hx. assert (Hb : 0 <= bt_bits x / 6 < 22).
  { unfold bt_bits. replace (x =? 0) with false by (symmetry; apply Z.eqb_neq; lia). assert (Z.log2 x < 128) by (apply Z.log2_lt_pow2; lia). pose proof (Z.log2_nonneg x).
    split; [apply Z.div_pos; lia | apply Z.div_lt_upper_bound; lia]. }
  unfold shl_, usize. replace ((0 <=? bt_bits x / 6) && (bt_bits x / 6 <? 64)) with true by (symmetry; apply andb_true_iff; split; [apply Z.leb_le | apply Z.ltb_lt]; lia).
  eexists. split; [reflexivity|]. rewrite Z.shiftl_mul_pow2, Z.mul_1_l by lia.
  assert (2 ^ (bt_bits x / 6) <= 2 ^ 22) by (apply Z.pow_le_mono_r; lia). assert (0 < 2 ^ (bt_bits x / 6)) by (apply Z.pow_pos_nonneg; lia).
  rewrite Z.mod_small by (change (2 ^ 22) with 4194304 in *; lia). change (2 ^ 22) with 4194304 in *. lia.
Qed.

Lemma find_lucky : forall target d dr, 1 <= fuel -> cofactor f w target -> proper_divisor d target ->
  find_divisor f pf fuel w target (0 :: d :: dr) = Ret (d, dr).
Proof.
  intros target d dr Hf Hc Hd. pose proof Hc as [Hn _]. assert (Hw : 2 ^ w <= 2 ^ 128) by (cbn [valid_ity] in Hv; apply Z.pow_le_mono_r; lia).
  destruct (first_shl target ltac:(lia)) as [mi [Hs Hm]]. unfold find_divisor, loop.
  assert (Es : forall g (st : Z * Z * draws), iter (R := Z * draws) fuel g st = kbind (g st) (iter (fuel - 1) g)) by (intros g st; rewrite <- iter_succ by lia; f_equal; lia).
  rewrite Es. pose proof (method_lucky target d 0 1 mi 0 d dr Hc Hd eq_refl Hs Hm) as E. unfold draws in *. rewrite E.
  - reflexivity.
  - rewrite (Z.mod_0_l (2 ^ w)) by lia. apply Z.mod_0_l. lia.
  - destruct Hd as [D1 [D2 _]]. rewrite !Z.mod_small; try reflexivity; try lia. rewrite Z.mod_small; lia.
Qed.
End Find.

Lemma accepted_pos : forall f pf lf k, accepted f pf lf k -> 1 <= k.
Proof.
  intros f pf lf k A. specialize (A []). destruct (Z.lt_ge_cases k 1) as [C|C]; [|exact C]. exfalso.
  unfold prime_probably, nt_is_prime, is_prime in A. cbn [uops o_is_even] in A. destruct (Z.even k) eqn:Ev.
  - unfold o_const in A. cbn [uops o_from] in A. rewrite from_prim_ok in A by (cbn [u128 in_range]; lia). cbn [unwrap bind uops o_eqb] in A.
    replace (k =? 2) with false in A by (symmetry; apply Z.eqb_neq; lia). discriminate.
  - cbn [uops o_to_z] in A. replace (k <? 2 ^ 64) with true in A by (symmetry; apply Z.ltb_lt; lia). unfold is_prime64 in A.
    replace (k <? 2) with true in A by (symmetry; apply Z.ltb_lt; lia). discriminate.
Qed.

(** ** The work list gets smaller *)
Definition weight (x : Z * Z) : Z := 2 * Z.log2 (fst x) - 1.
Fixpoint weights (l : list (Z * Z)) : Z := match l with [] => 0 | x :: l' => weight x + weights l' end.
Lemma log2_mul : forall a b, 1 < a -> 1 < b -> 1 <= Z.log2 a /\ 1 <= Z.log2 b /\ Z.log2 a + Z.log2 b <= Z.log2 (a * b).
Proof.
  intros a b Ha Hb. split; [apply (Z.log2_le_mono 2 a); lia|]. split; [apply (Z.log2_le_mono 2 b); lia|]. apply Z.log2_mul_below; lia.
Qed.
Lemma weight_split : forall a b e e' e'', 1 < a -> 1 < b -> weight (a, e) + weight (b, e') + 1 <= weight (a * b, e'').
Proof. intros a b e e' e'' Ha Hb. unfold weight. cbn [fst]. pose proof (log2_mul a b Ha Hb). lia. Qed.
Lemma weight_pos : forall a e, 1 < a -> 1 <= weight (a, e).
Proof. intros a e Ha. unfold weight. cbn [fst]. assert (Z.log2 2 <= Z.log2 a) by (apply Z.log2_le_mono; lia). change (Z.log2 2) with 1 in *. lia. Qed.
Lemma weights_pos : forall l, Forall (fun x => 1 < fst x) l -> 0 <= weights l.
Proof. induction l as [|[a e] l IH]; intros H; cbn [weights]; [lia|]. inversion H; subst. cbn [fst] in *. specialize (IH ltac:(assumption)). pose proof (weight_pos a e ltac:(assumption)). lia. Qed.

(** ** factorize64 *)
Section Adv64.
Variables (f : feature) (pf : profile) (fuel P : Z).
Hypothesis (HP : 1 <= P < 2 ^ 128).
Hypothesis (Hfuel : 1 <= fuel).

Lemma entries64 : forall l, Forall (entry64 f) l -> Forall (fun x => 1 < fst x) l.
Proof. intros l H. eapply Forall_impl; [|exact H]. intros x [[A _] _]. lia. Qed.

Lemma adv64_step_lucky : forall n e todo factored, adv_inv f P ((n, e) :: todo, factored, []) ->
  exists ds todo' factored', (forall rest, adv64_step f pf fuel ((n, e) :: todo, factored, ds ++ rest) = Ret (Next (todo', factored', rest))) /\
    weights todo' + 1 <= weights ((n, e) :: todo) /\ (forall x, In x ds -> 0 <= x < 2 ^ 64).
Proof.
  intros n e todo factored [Ht [Hf E]]. inversion Ht as [|x l [Hc He] Ht']; subst x l. cbn [fst snd] in Hc, He. cbn [prod_powers] in E.
  pose proof (cofactor_odd f 64 n Hc) as Ho. pose proof (cofactor_ge f 64 n Hc) as Hge. pose proof (next_ge f) as Hnx. pose proof Hc as [Hn _].
  pose proof (entry64_pos f todo Ht') as T1.
  assert (F1 : 1 <= prod_powers factored) by (apply (entry64_pos f); eapply Forall_impl; [|exact Hf]; cbn beta; tauto).
  assert (He' : e < 128) by (apply (exponent_small P HP n e (prod_powers todo * prod_powers factored)); [lia | lia | nia | lia]).
  cbn [weights]. pose proof (weight_pos n e ltac:(lia)) as W1.
  assert (Hm := miller64_law f pf n ltac:(lia) Ho).
  destruct (forallb (z_sprp n) (miller_bases f n)) eqn:Em.
  { exists [], todo, (factored ++ [(n, e)]). split; [|split; [lia | intros x []]]. intros rest. cbn [app adv64_step]. rewrite Hm. reflexivity. }
  destruct (sqrt_exact_lawful f pf u64 n) as [o [Eo Hr]]; [cbn [in_range u64]; lia | lia|].
  destruct o as [d|]; cbn [exact_root] in Hr.
  { destruct Hr as [Hd0 Hd]. rewrite Z.pow_2_r in Hd. assert (Hd1 : 1 < d) by nia.
    exists [], ((d, e * 2) :: todo), factored. split; [|split; [|intros x []]].
    - intros rest. cbn [app adv64_step]. rewrite Hm. cbn [bind]. rewrite Eo. cbn [bind]. rewrite mul_ok by (cbn [usize in_range]; lia). reflexivity.
    - cbn [weights]. pose proof (weight_split d d (e * 2) (e * 2) e Hd1 Hd1) as W. rewrite Hd in W. pose proof (weight_pos d (e * 2) Hd1). lia. }
  destruct (nth_root_exact_nonneg n 3) as [o [Eo3 Hr3]]; [lia | lia|]. destruct o as [d|].
  { destruct Hr3 as [Hd0 Hd]. assert (Ed : d ^ 3 = d * (d * d)) by ring. assert (Hd1 : 1 < d) by nia.
    exists [], ((d, e * 3) :: todo), factored. split; [|split; [|intros x []]].
    - intros rest. cbn [app adv64_step]. rewrite Hm. cbn [bind]. rewrite Eo. cbn [bind cbrt_exact u64]. unfold cbrt_exact_prim. rewrite Eo3. cbn [bind].
      rewrite mul_ok by (cbn [usize in_range]; lia). reflexivity.
    - cbn [weights]. pose proof (weight_split d (d * d) (e * 3) 1 e Hd1 ltac:(nia)) as W. rewrite <- Ed, Hd in W. pose proof (weight_pos (d * d) 1 ltac:(nia)). lia. }
  assert (Np : ~ prime n).
  { intros Pn. assert (Hall : forallb (z_sprp n) (miller_bases f n) = true); [|congruence].
    apply forallb_forall. intros a Ha. apply z_sprp_spec; [lia | exact Ho|]. apply prime_strong_prp; [exact Pn | exact Ho |]. apply (miller_bases_coprime f); [exact Pn | lia | exact Ha]. }
  destruct (proper_nonprime n ltac:(lia) Np) as [d Hd]. pose proof Hd as [D1 [D2 [c D3]]]. assert (Hc1 : 1 < c) by nia.
  exists [0; d], ((c, e) :: (d, e) :: todo), factored. split; [|split].
  - intros rest. cbn [app adv64_step]. rewrite Hm. cbn [bind]. rewrite Eo. cbn [bind cbrt_exact u64]. unfold cbrt_exact_prim. rewrite Eo3. cbn [bind].
    rewrite (find_lucky f pf fuel 64 ltac:(cbn; lia) n d rest Hfuel Hc Hd). cbn [bind]. rewrite div_ok by lia. cbn [bind].
    replace (n / d) with c by (rewrite D3, Z.div_mul; lia). reflexivity.
  - cbn [weights]. pose proof (weight_split c d e e e Hc1 D1) as W. rewrite <- D3 in W. lia.
  - intros x [<-|[<-|[]]]; lia.
Qed.

Lemma adv64_lucky : forall k : nat, forall todo factored fl, adv_inv f P (todo, factored, []) -> weights todo <= Z.of_nat k -> Z.of_nat k < fl ->
  exists ds fs, (forall rest, loop fl (adv64_step f pf fuel) (todo, factored, ds ++ rest) = Ret (fs, rest)) /\ (forall x, In x ds -> 0 <= x < 2 ^ 64).
Proof.
  induction k as [|k IH]; intros todo factored fl HI Hw Hfl.
  - destruct todo as [|[n e] todo].
    + exists [], factored. split; [|intros x []]. intros rest. unfold loop. replace fl with (fl - 1 + 1) by lia. rewrite iter_succ by lia. reflexivity.
    + exfalso. destruct HI as [Ht _]. pose proof (entries64 _ Ht) as H. inversion H; subst. cbn [fst] in *. cbn [weights] in Hw.
      pose proof (weight_pos n e ltac:(assumption)). pose proof (weights_pos todo ltac:(assumption)). lia.
  - destruct todo as [|[n e] todo].
    + exists [], factored. split; [|intros x []]. intros rest. unfold loop. replace fl with (fl - 1 + 1) by lia. rewrite iter_succ by lia. reflexivity.
    + destruct (adv64_step_lucky n e todo factored HI) as [ds [todo' [factored' [Hstep [Hdec Hds]]]]].
      assert (HI' : adv_inv f P (todo', factored', [])).
      { pose proof (adv64_step_spec f pf fuel P HP ((n, e) :: todo, factored, ds ++ [])) as R. rewrite Hstep in R. cbn [run] in R. apply R. exact HI. }
      destruct (IH todo' factored' (fl - 1) HI' ltac:(lia) ltac:(lia)) as [ds' [fs [Hrun Hds']]].
      exists (ds ++ ds'), fs. split.
      * intros rest. rewrite <- app_assoc. specialize (Hstep (ds' ++ rest)). specialize (Hrun rest). unfold loop in *. replace fl with (fl - 1 + 1) by lia. rewrite iter_succ by lia.
        rewrite Hstep. cbn [kbind bind]. exact Hrun.
      * intros x Hx. apply in_app_or in Hx. destruct Hx; auto.
Qed.
End Adv64.

Lemma weight_bound : forall b n e, 0 < b -> 1 <= n < 2 ^ b -> weight (n, e) <= 2 * b - 3.
Proof. intros b n e Hb Hn. unfold weight. cbn [fst]. assert (Z.log2 n < b) by (apply Z.log2_lt_pow2; lia). lia. Qed.

Lemma factorize64_lucky : forall f pf fuel n, 129 < fuel -> 1 <= n < 2 ^ 64 ->
  exists ds m, (forall rest, factorize64 f pf fuel n (ds ++ rest) = Ret (m, rest)) /\ (forall x, In x ds -> 0 <= x < 2 ^ 64).
Proof.
  intros f pf fuel n Hf Hn.
  assert (K : (exists m, forall dr, factorize64 f pf fuel n dr = Ret (m, dr)) \/
    (exists res rsd, cofactor f 64 rsd /\ forall dr, factorize64 f pf fuel n dr = ('(fs, dr') <- factorize64_advanced f pf fuel [(rsd, 1)] dr ;; Ret (merge_factors res fs, dr')))).
  { unfold factorize64. unfold bt_trailing_zeros. replace (n =? 0) with false by (symmetry; apply Z.eqb_neq; lia). cbv zeta.
    destruct (if ztz n =? 0 then is_prime64 f pf n else Ret false) as [pr| |] eqn:Epr.
    2,3: exfalso; destruct (ztz n =? 0); [rewrite is_prime64_law in Epr by lia; discriminate | discriminate].
    cbn [bind]. destruct pr; [left; eauto|].
    unfold ext_sqrt. assert (Hsq : Z.sqrt n < 2 ^ 32) by (apply Z.sqrt_lt_square; lia). pose proof (Z.sqrt_nonneg n).
    rewrite add_ok by (cbn [u64 in_range]; lia). cbn [bind].
    assert (Hin : in_range u64 n) by (cbn [u64 in_range]; lia). destruct (shr_ztz pf u64 n Hin ltac:(lia)) as [-> _]. cbn [bind].
    destruct (table_stage f fuel false (Some (Z.sqrt n + 1)) n Hn Hf) as [res [rsd [fac [-> [W [P [R [K [F T]]]]]]]]]. cbn [bind].
    destruct fac; [left; eauto|]. right. exists res, rsd. split; [exact (F eq_refl) | reflexivity]. }
  destruct K as [[m Hm]|[res [rsd [Hc Hm]]]]; [exists [], m; split; [exact Hm | intros x []]|].
  pose proof Hc as [Hr _].
  destruct (adv64_lucky f pf fuel rsd ltac:(lia) ltac:(lia) 128 [(rsd, 1)] [] fuel) as [ds [fs [Hrun Hds]]].
  - split; [constructor; [split; [exact Hc | cbn; lia] | constructor]|]. split; [constructor|]. cbn [prod_powers]. rewrite Z.pow_1_r. lia.
  - cbn [weights]. pose proof (weight_bound 64 rsd 1 ltac:(lia) ltac:(lia)). lia.
  - lia.
  - exists ds, (merge_factors res fs). split; [|exact Hds]. intros rest. rewrite Hm. unfold factorize64_advanced. rewrite Hrun. reflexivity.
Qed.

(** ** factorize128 *)
Section Adv128.
Variables (f : feature) (pf : profile) (lf : nat) (fuel P : Z).
Hypothesis (HP : 1 <= P < 2 ^ 128).
Hypothesis (Hlf : 6 + Z.sqrt P <= Z.of_nat lf <= 2 ^ 61).
Hypothesis (Hfuel : 129 < fuel).

Lemma bpsw_returns : forall n, 3 <= n <= P -> Z.odd n = true ->
  exists b, (forall dr, prime_probably f pf u128 lf n (Some pc_bpsw) dr = Ret (b, dr)) /\ (prime n -> b = true).
Proof.
  intros n Hn Ho. assert (Hin : in_range u128 n) by (cbn [in_range u128]; lia). assert (Hs : Z.sqrt n <= Z.sqrt P) by (apply Z.sqrt_le_mono; lia).
  unfold prime_probably, nt_is_prime. assert (VU : UV u128 n n) by (split; auto).
  assert (Hv : valid_ity u128) by (cbn; lia).
  destruct (Z.lt_ge_cases n (2 ^ 64)) as [Hsm|Hl].
  - eexists. split.
    + intros dr. rewrite (is_prime_small f pf _ no_probs u128 _ _ _ (uops_lawful f pf u128) Hv _ _ _ _ _ _ VU Hsm). cbn [bind]. reflexivity.
    + intros Pn. cbv beta. rewrite z_is_prime64_complete by exact Pn. reflexivity.
  - assert (Hb : forall w, In w (buf_iter (buf_new f)) -> 0 <= w < 2 ^ 64) by (intros w Hw; apply new_buf_range in Hw; lia).
    destruct (self_at_exists n ltac:(lia) Ho) as [e Ha].
    assert (Hsl := is_slprp_auto pf _ u128 _ _ _ (uops_lawful f pf u128) Hv lf n n e None None VU ltac:(cbv beta; lia) Ho ltac:(lia) Ha ltac:(left; lia) (or_introl eq_refl)).
    rewrite (sqrt_fuel_self n e lf Ha ltac:(lia)) in Hsl.
    assert (E : forall dr, is_prime f pf (uops f pf u128) no_probs lf (buf_iter (buf_new f)) n (Some pc_bpsw) dr =
      if negb (forallb (z_sprp n) (fixed_witnesses pc_bpsw (buf_iter (buf_new f)))) then Ret (No, dr) else
      if negb (z_auto z_slprp n e) then Ret (No, dr) else Ret (Probable tt, dr)).
    { intros dr. rewrite (is_prime_large f pf _ no_probs u128 _ _ _ (uops_lawful f pf u128) Hv lf _ n n (Some pc_bpsw) dr VU ltac:(cbv beta; lia) Ho Hl Hb). cbv zeta. cbn [the_config].
      unfold draw_witnesses. cbn [pc_bpsw sprp_random_trials slprp_test eslprp_test]. change (0 <? 0) with false. cbn [bind]. fold pc_bpsw. rewrite Hsl.
      destruct (negb _); [reflexivity|]. cbn [bind]. destruct (z_auto z_slprp n e); reflexivity. }
    assert (C1 : prime n -> forallb (z_sprp n) (fixed_witnesses pc_bpsw (buf_iter (buf_new f))) = true).
    { intros Pn. apply forallb_forall. intros a Hina. apply z_sprp_spec; [lia | exact Ho|]. apply prime_strong_prp; [exact Pn | exact Ho |].
      assert (Hr : 1 <= a < 2 ^ 64).
      { unfold fixed_witnesses in Hina. cbn [pc_bpsw sprp_trials] in Hina. change (0 <? 1) with true in Hina. cbv iota in Hina.
        pose proof (new_buf_range f a) as K. rewrite <- (firstn_skipn (Z.to_nat 1) (buf_iter (buf_new f))) in K. specialize (K (in_or_app _ _ _ (or_introl Hina))). lia. }
      intros D. apply Z.divide_pos_le in D; lia. }
    assert (C2 : prime n -> z_auto z_slprp n e = true).
    { intros Pn. unfold z_auto. rewrite (self_prime_usable n e Pn Ho Ha). apply prime_slprp; [exact Pn | exact Ho | right; apply auto_cond; assumption]. }
    destruct (forallb (z_sprp n) (fixed_witnesses pc_bpsw (buf_iter (buf_new f)))) eqn:E1; cbn [negb] in E.
    + destruct (z_auto z_slprp n e) eqn:E2; cbn [negb] in E.
      * exists true. split; [intros dr; rewrite E; reflexivity | reflexivity].
      * exists false. split; [intros dr; rewrite E; reflexivity | intros Pn; specialize (C2 Pn); congruence].
    + exists false. split; [intros dr; rewrite E; reflexivity | intros Pn; specialize (C1 Pn); congruence].
Qed.

Lemma entries128 : forall l, Forall (entry128 f) l -> Forall (fun x => 1 < fst x) l.
Proof. intros l H. eapply Forall_impl; [|exact H]. intros x [[A _] _]. lia. Qed.
Lemma route_weights : forall d e a b, 1 < d -> Forall (fun x => 1 < fst x) b -> weights (fst (route d e a b)) + weights (snd (route d e a b)) = weight (d, e) + weights a + weights b /\ weights (fst (route d e a b)) <= weight (d, e) + weights a.
Proof. intros d e a b Hd Hb. unfold route. pose proof (weight_pos d e Hd). destruct (d <? 2 ^ 64); cbn [fst snd weights]; lia. Qed.

Lemma adv128_step_lucky : forall n e t128 t64 factored, adv128_inv f pf lf P ((n, e) :: t128, t64, factored, []) ->
  exists ds t128' t64' factored', (forall rest, adv128_step f pf lf fuel ((n, e) :: t128, t64, factored, ds ++ rest) = Ret (Next (t128', t64', factored', rest))) /\
    weights t128' + 1 <= weights ((n, e) :: t128) /\ weights t128' + weights t64' <= weights ((n, e) :: t128) + weights t64 /\ (forall x, In x ds -> 0 <= x < 2 ^ 128).
Proof.
  intros n e t128 t64 factored [H1 [H2 [H3 E]]]. inversion H1 as [|x l [Hc He] H1']; subst x l. cbn [fst snd] in Hc, He. cbn [prod_powers] in E.
  pose proof (cofactor_odd f 128 n Hc) as Ho. pose proof (cofactor_ge f 128 n Hc) as Hge. pose proof (next_ge f) as Hnx. pose proof Hc as [Hn _].
  assert (Hin : in_range u128 n) by (cbn [in_range u128]; lia).
  pose proof (entry128_pos f lf t128 H1') as T1. pose proof (entry64_pos f t64 H2) as T2.
  assert (F1 : 1 <= prod_powers factored) by (apply (entry128_pos f lf); eapply Forall_impl; [|exact H3]; cbn beta; tauto).
  assert (He' : e < 128) by (apply (exponent_small P HP n e (prod_powers t128 * (prod_powers t64 * prod_powers factored))); [lia | lia | nia | lia]).
  assert (HnP : n <= P).
  { assert (n ^ 1 <= n ^ e) by (apply Z.pow_le_mono_r; lia). rewrite Z.pow_1_r in *.
    assert (1 <= prod_powers t128 * (prod_powers t64 * prod_powers factored)) by nia. rewrite <- Z.mul_assoc in E. nia. }
  pose proof (entries64 f t64 H2) as G64.
  cbn [weights]. pose proof (weight_pos n e ltac:(lia)) as W1.
  destruct (bpsw_returns n ltac:(lia) Ho) as [b [Hb Hpr]].
  assert (Hm : forall dr, mint_probably f pf u128 lf n (Some pc_bpsw) dr = Ret (b, dr)) by (intros dr; rewrite (mint_probably_eq f pf u128 n lf (Some pc_bpsw) dr ltac:(cbn; lia) Hin Ho ltac:(lia) eq_refl ltac:(lia)); apply Hb).
  destruct b.
  { exists [], t128, t64, (factored ++ [(n, e)]). split; [|split; [lia | split; [lia | intros x []]]]. intros rest. cbn [app adv128_step]. rewrite Hm. reflexivity. }
  destruct (sqrt_exact_lawful f pf u128 n Hin ltac:(lia)) as [o [Eo Hr]]. destruct o as [d|]; cbn [exact_root] in Hr.
  { destruct Hr as [Hd0 Hd]. rewrite Z.pow_2_r in Hd. assert (Hd1 : 1 < d) by nia.
    destruct (route_weights d (e * 2) t128 t64 Hd1 G64) as [R1 R2]. destruct (route d (e * 2) t128 t64) as [a b] eqn:Er. cbn [fst snd] in *.
    pose proof (weight_split d d (e * 2) (e * 2) e Hd1 Hd1) as W. rewrite Hd in W. pose proof (weight_pos d (e * 2) Hd1).
    exists [], a, b, factored. split; [|split; [lia | split; [lia | intros x []]]].
    intros rest. cbn [app adv128_step]. rewrite Hm. cbn [bind]. rewrite Eo. cbn [bind]. rewrite mul_ok by (cbn [usize in_range]; lia). cbn [bind]. rewrite Er. reflexivity. }
  destruct (nth_root_exact_nonneg n 3) as [o [Eo3 Hr3]]; [lia | lia|]. destruct o as [d|].
  { destruct Hr3 as [Hd0 Hd]. assert (Ed : d ^ 3 = d * (d * d)) by ring. assert (Hd1 : 1 < d) by nia.
    destruct (route_weights d (e * 3) t128 t64 Hd1 G64) as [R1 R2]. destruct (route d (e * 3) t128 t64) as [a b] eqn:Er. cbn [fst snd] in *.
    pose proof (weight_split d (d * d) (e * 3) 1 e Hd1 ltac:(nia)) as W. rewrite <- Ed, Hd in W. pose proof (weight_pos (d * d) 1 ltac:(nia)).
    exists [], a, b, factored. split; [|split; [lia | split; [lia | intros x []]]].
    intros rest. cbn [app adv128_step]. rewrite Hm. cbn [bind]. rewrite Eo. cbn [bind cbrt_exact u128]. unfold cbrt_exact_prim. rewrite Eo3. cbn [bind].
    rewrite mul_ok by (cbn [usize in_range]; lia). cbn [bind]. rewrite Er. reflexivity. }
  assert (Np : ~ prime n) by (intros Pn; specialize (Hpr Pn); discriminate).
  destruct (proper_nonprime n ltac:(lia) Np) as [d Hd]. pose proof Hd as [D1 [D2 [c D3]]]. assert (Hc1 : 1 < c) by nia.
  destruct (route_weights d e t128 t64 D1 G64) as [R1 R2].
  assert (Hcd : cofactor f 128 d) by (apply (cofactor_div f 128 n d Hc D1); exists c; lia).
  destruct (route_spec f lf d e t128 t64 Hcd He H1' H2) as [_ [S2 _]]. pose proof (entries64 f _ S2) as G64'.
  destruct (route d e t128 t64) as [a b] eqn:Er. cbn [fst snd] in *.
  destruct (route_weights c e a b Hc1 G64') as [R3 R4]. destruct (route c e a b) as [a' b'] eqn:Er'. cbn [fst snd] in *.
  pose proof (weight_split c d e e e Hc1 D1) as W. rewrite <- D3 in W.
  exists [0; d], a', b', factored. split; [|split; [lia | split; [lia | intros x [<-|[<-|[]]]; lia]]].
  intros rest. cbn [app adv128_step]. rewrite Hm. cbn [bind]. rewrite Eo. cbn [bind cbrt_exact u128]. unfold cbrt_exact_prim. rewrite Eo3. cbn [bind].
  rewrite (find_lucky f pf fuel 128 ltac:(cbn; lia) n d rest ltac:(lia) Hc Hd). cbn [bind]. rewrite Er, div_ok by lia. cbn [bind].
  replace (n / d) with c by (rewrite D3, Z.div_mul; lia). rewrite Er'. reflexivity.
Qed.

Lemma adv128_lucky : forall k : nat, forall t128 t64 factored fl, adv128_inv f pf lf P (t128, t64, factored, []) -> weights t128 <= Z.of_nat k -> Z.of_nat k < fl ->
  exists ds t64' factored', (forall rest, loop fl (adv128_step f pf lf fuel) (t128, t64, factored, ds ++ rest) = Ret (t64', factored', rest)) /\ (forall x, In x ds -> 0 <= x < 2 ^ 128) /\
    adv128_inv f pf lf P ([], t64', factored', []) /\ weights t64' <= weights t128 + weights t64.
Proof.
  assert (Base : forall t64 factored fl, 0 < fl -> adv128_inv f pf lf P ([], t64, factored, []) -> exists ds t64' factored', (forall rest, loop fl (adv128_step f pf lf fuel) ([], t64, factored, ds ++ rest) = Ret (t64', factored', rest)) /\ (forall x, In x ds -> 0 <= x < 2 ^ 128) /\
    adv128_inv f pf lf P ([], t64', factored', []) /\ weights t64' <= weights [] + weights t64).
  { intros t64 factored fl Hfl HI. exists [], t64, factored. split; [|split; [intros x [] | split; [exact HI | cbn [weights]; lia]]].
    intros rest. unfold loop. replace fl with (fl - 1 + 1) by lia. rewrite iter_succ by lia. reflexivity. }
  induction k as [|k IH]; intros t128 t64 factored fl HI Hw Hfl.
  - destruct t128 as [|[n e] t128]; [apply Base; [lia | exact HI]|].
    exfalso. destruct HI as [Ht _]. pose proof (entries128 _ Ht) as H. inversion H; subst. cbn [fst] in *. cbn [weights] in Hw.
    pose proof (weight_pos n e ltac:(assumption)). pose proof (weights_pos t128 ltac:(assumption)). lia.
  - destruct t128 as [|[n e] t128]; [apply Base; [lia | exact HI]|].
    destruct (adv128_step_lucky n e t128 t64 factored HI) as [ds [t128' [t64' [factored' [Hstep [Hdec [Hsum Hds]]]]]]].
    assert (HI' : adv128_inv f pf lf P (t128', t64', factored', [])).
    { pose proof (adv128_step_spec f pf lf fuel P HP ltac:(lia) ((n, e) :: t128, t64, factored, ds ++ [])) as R. rewrite Hstep in R. cbn [run] in R. apply R. exact HI. }
    destruct (IH t128' t64' factored' (fl - 1) HI' ltac:(lia) ltac:(lia)) as [ds' [t64'' [factored'' [Hrun [Hds' [HI'' Hw'']]]]]].
    exists (ds ++ ds'), t64'', factored''. split; [|split; [|split; [exact HI'' | lia]]].
    + intros rest. rewrite <- app_assoc. specialize (Hstep (ds' ++ rest)). specialize (Hrun rest). unfold loop in *. replace fl with (fl - 1 + 1) by lia. rewrite iter_succ by lia.
      rewrite Hstep. cbn [kbind bind]. exact Hrun.
    + intros x Hx. apply in_app_or in Hx. destruct Hx; auto.
Qed.

Lemma adv128_all_lucky : 256 < fuel -> cofactor f 128 P ->
  exists ds fs, (forall rest, factorize128_advanced f pf lf fuel P 1 (ds ++ rest) = Ret (fs, rest)) /\ (forall x, In x ds -> 0 <= x < 2 ^ 128).
Proof.
  intros Hf2 HcP. unfold factorize128_advanced.
  destruct (route_spec f lf P 1 [] [] HcP ltac:(lia) ltac:(constructor) ltac:(constructor)) as [R1 [R2 R3]].
  pose proof HcP as [HP' _]. destruct (route_weights P 1 [] [] ltac:(lia) ltac:(constructor)) as [Q1 Q2].
  destruct (route P 1 [] []) as [t128 t64]. cbn [fst snd prod_powers weights] in *. pose proof (weight_bound 128 P 1 ltac:(lia) ltac:(lia)) as B.
  destruct (adv128_lucky 255 t128 t64 [] fuel) as [ds [t64' [factored [Hrun [Hds [HI Hw]]]]]].
  - cbn [adv128_inv prod_powers]. split; [exact R1|]. split; [exact R2|]. split; [constructor|]. rewrite Z.mul_1_r, R3, Z.pow_1_r. lia.
  - lia.
  - lia.
  - destruct HI as [_ [I2 [I3 I4]]]. cbn [prod_powers] in I4. pose proof (entry64_pos f t64' I2) as T2.
    assert (F1 : 1 <= prod_powers factored) by (apply (entry128_pos f lf); eapply Forall_impl; [|exact I3]; cbn beta; tauto).
    destruct (adv64_lucky f pf fuel (prod_powers t64') ltac:(nia) ltac:(lia) 255 t64' [] fuel) as [ds' [fs [Hrun' Hds']]].
    + split; [exact I2|]. split; [constructor | cbn [prod_powers]; lia].
    + lia.
    + lia.
    + exists (ds ++ ds'), (factored ++ fs). split.
      * intros rest. rewrite <- app_assoc, Hrun. cbn [bind]. unfold factorize64_advanced. rewrite Hrun'. reflexivity.
      * intros x Hx. apply in_app_or in Hx. destruct Hx as [Hx|Hx]; [auto|]. specialize (Hds' x Hx). lia.
Qed.
End Adv128.

Lemma factorize128_lucky : forall f pf lf fuel n, 256 < fuel -> 6 + Z.sqrt n <= Z.of_nat lf <= 2 ^ 61 -> 1 <= n < 2 ^ 128 ->
  exists ds m, (forall rest, factorize128 f pf lf fuel n (ds ++ rest) = Ret (m, rest)) /\ (forall x, In x ds -> 0 <= x < 2 ^ 128).
Proof.
  intros f pf lf fuel n Hf Hlf Hn. unfold factorize128. destruct (Z.ltb_spec n (2 ^ 64)) as [L|L].
  - destruct (factorize64_lucky f pf fuel n ltac:(lia) ltac:(lia)) as [ds [m [H1 H2]]]. exists ds, m. split; [exact H1|]. intros x Hx. specialize (H2 x Hx). lia.
  - unfold bt_trailing_zeros. replace (n =? 0) with false by (symmetry; apply Z.eqb_neq; lia). cbv zeta.
    assert (Hin : in_range u128 n) by (cbn [u128 in_range]; lia). destruct (shr_ztz pf u128 n Hin ltac:(lia)) as [-> _]. cbn [bind].
    destruct (table_stage f fuel true None n Hn ltac:(lia)) as [res [rsd [fac [-> [W [P [R [K [F T]]]]]]]]]. cbn [bind].
    destruct fac; [exists [], res; split; [reflexivity | intros x []]|]. specialize (F eq_refl). pose proof F as [F1 _].
    assert (Hle : rsd <= n).
    { assert (1 <= prod_powers res); [|nia]. apply prod_powers_pos. intros p e Hin'. destruct (K p (in_map fst _ _ Hin')) as [Kp _]. pose proof (prime_ge2 p Kp).
      destruct W as [_ W]. rewrite Forall_forall in W. specialize (W _ Hin'). cbn [snd] in W. lia. }
    assert (Z.sqrt rsd <= Z.sqrt n) by (apply Z.sqrt_le_mono; lia).
    destruct (adv128_all_lucky f pf lf fuel rsd ltac:(lia) ltac:(lia) ltac:(lia) Hf F) as [ds [fs [Hrun Hds]]].
    exists ds, (merge_factors res fs). split; [|exact Hds]. intros rest. rewrite Hrun. reflexivity.
Qed.
