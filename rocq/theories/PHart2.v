(** * The one line method makes factorize64 (src/nt_funcs.rs:143-317) end whatever is drawn, for small cofactors. *)
From Coq Require Import ZArith Znumtheory Zpow_facts List Lia Bool Sorted.
From Verif Require Import Base Tables Spec Ext NT NTRabin PBase PTables MInteger PInteger Ops POps MPrimality MTraits PSprp PropSprp MFactor MSieve MIsPrime NTLucas NTResidue PLucas PLucas2 PLucas3 PropMint PIsPrime PIsPrime2 MFactorize PFactor PFactor2 PSqufof PFactorize PFactorize2 PDraws PHart.
Import ListNotations.
Local Open Scope Z_scope.

(** the cofactors for which the one line method cannot overflow before it succeeds, and how far it goes *)
Definition small_limit (f : feature) : Z := match f with BigTable => 2 ^ 37 | SmallTable => 2 ^ 32 end.
Definition pass_limit (f : feature) : Z := match f with BigTable => 250000 | SmallTable => 7900000 end.

Lemma coprime_split : forall f n, cofactor f 64 n -> n < 2 ^ 40 -> ~ prime n -> (~ exists s, s * s = n) -> (~ exists s, s ^ 3 = n) ->
  exists a b, n = a * b /\ 1 < a < b /\ rel_prime a b.
Proof.
  intros f n Hc Hn Np Hsq Hcb. pose proof Hc as [H1 H2]. destruct (prime_divisor_exists n ltac:(lia)) as [p [Pp D]].
  assert (Hp : 257 <= p) by (pose proof (next_ge f); destruct (Z.lt_ge_cases p (SMALL_PRIMES_NEXT f)) as [L|L]; [exfalso; exact (H2 p Pp L D) | lia]).
  destruct (split_prime p n Pp ltac:(lia)) as [e [m [He [En [Hm Nm]]]]].
  assert (He1 : 1 <= e) by (destruct (Z.eq_dec e 0) as [->|]; [exfalso; rewrite Z.pow_0_r, Z.mul_1_l in En; subst m; contradiction | lia]).
  assert (Hpe : p <= p ^ e) by (rewrite <- (Z.pow_1_r p) at 1; apply Z.pow_le_mono_r; lia).
  assert (Hrel : rel_prime (p ^ e) m) by (apply rel_prime_sym, rel_prime_Zpower_r; [lia|]; apply rel_prime_sym, prime_rel_prime; assumption).
  destruct (Z.eq_dec m 1) as [->|Nm1].
  { exfalso. rewrite Z.mul_1_r in En. assert (e < 5). { destruct (Z.lt_ge_cases e 5) as [|C]; [assumption|]. exfalso. assert (p ^ 5 <= p ^ e) by (apply Z.pow_le_mono_r; lia). assert (257 ^ 5 <= p ^ 5) by (apply Z.pow_le_mono_l; lia). change (257 ^ 5) with 1121154893057 in *. lia. }
    assert (e = 1 \/ e = 2 \/ e = 3 \/ e = 4) as K by lia. destruct K as [K | [K | [K | K]]]; subst e.
    - rewrite Z.pow_1_r in En. subst p. contradiction.
    - apply Hsq. exists p. rewrite En. ring.
    - apply Hcb. exists p. symmetry. exact En.
    - apply Hsq. exists (p * p). rewrite En. ring. }
  destruct (Z.lt_trichotomy (p ^ e) m) as [L|[E|L]].
  - exists (p ^ e), m. split; [exact En|]. split; [lia | exact Hrel].
  - exfalso. apply Hsq. exists m. rewrite En, E. reflexivity.
  - exists m, (p ^ e). split; [rewrite En; ring|]. split; [lia | apply rel_prime_sym; exact Hrel].
Qed.

Lemma small_hit : forall f n, cofactor f 64 n -> n < small_limit f -> ~ prime n -> (~ exists s, s * s = n) -> (~ exists s, s ^ 3 = n) ->
  exists i d, 1 <= i <= pass_limit f /\ hit n (480 * n) i d /\ i * (480 * n) < (2 ^ 32 - 1) * (2 ^ 32 - 1).
Proof.
  intros f n Hc Hn Np Hsq Hcb. assert (Hl : small_limit f <= 2 ^ 37) by (destruct f; cbn [small_limit]; lia).
  destruct (coprime_split f n Hc ltac:(lia) Np Hsq Hcb) as [a [b [En [Hab Hrel]]]].
  assert (Ha : cofactor f 64 a) by (eapply cofactor_div; [exact Hc | lia | exists b; lia]). assert (Hb : cofactor f 64 b) by (eapply cofactor_div; [exact Hc | lia | exists a; lia]).
  pose proof (cofactor_ge f 64 a Ha) as Ga. pose proof (next_ge f) as G0.
  assert (R : rel_prime a (120 * b)).
  { apply rel_prime_mult; [|exact Hrel]. apply Zgcd_1_rel_prime. apply small_coprime; [lia|]. intros p Pp D D'.
    destruct Ha as [_ Ha]. apply (Ha p Pp); [|exact D]. apply Z.divide_pos_le in D'; lia. }
  destruct (close_exists a (120 * b) ltac:(lia) (cofactor_odd f 64 a Ha)) as [v [u [Hv [Hcl Hbd]]]].
  destruct (close_hit a b 120 v u Hab (cofactor_odd f 64 a Ha) (cofactor_odd f 64 b Hb) ltac:(lia) R Hv Hcl Hbd) as [d [Hi [Hh Hle]]].
  assert (K : u * v <= pass_limit f /\ pass_limit f * (480 * small_limit f) < (2 ^ 32 - 1) * (2 ^ 32 - 1)).
  { split; [|destruct f; vm_compute; reflexivity]. eapply Z.le_trans; [exact Hle|]. apply Z.max_lub.
    - apply Z.lt_le_incl, Z.div_lt_upper_bound; [lia|]. destruct f; cbn [small_limit pass_limit] in *; nia.
    - assert (120 * b / a < pass_limit f); [|lia]. apply Z.div_lt_upper_bound; [lia|].
      assert (E1 : 120 * b * (SMALL_PRIMES_NEXT f) <= 120 * b * a) by (apply Z.mul_le_mono_nonneg_l; lia).
      assert (E2 : 120 * small_limit f <= SMALL_PRIMES_NEXT f * (SMALL_PRIMES_NEXT f * pass_limit f)) by (destruct f; vm_compute; discriminate).
      assert (0 < pass_limit f) by (destruct f; cbn; lia). assert (120 * b < SMALL_PRIMES_NEXT f * pass_limit f) by (apply Zmult_lt_reg_r with (SMALL_PRIMES_NEXT f); lia).
      assert (SMALL_PRIMES_NEXT f * pass_limit f <= a * pass_limit f) by (apply Z.mul_le_mono_nonneg_r; lia). lia. }
  destruct K as [K1 K2]. exists (u * v), d. split; [lia|]. rewrite En. replace (480 * (a * b)) with (4 * 120 * (a * b)) by ring. split; [exact Hh|].
  pose proof Hc as [Hc1 _]. eapply Z.le_lt_trans; [|exact K2]. apply Z.mul_le_mono_nonneg; lia.
Qed.

Section Always.
Variables (f : feature) (pf : profile) (fuel target : Z).
Hypothesis (Hfuel : 2 ^ 65 <= fuel).
Hypothesis (Hc : cofactor f 64 target).
Hypothesis (Hlim : target < small_limit f).
Hypothesis (Np : ~ prime target).
Hypothesis (Hsq : ~ exists s, s * s = target).
Hypothesis (Hcb : ~ exists s, s ^ 3 = target).

Lemma lim37 : target < 2 ^ 37.
Proof. destruct f; cbn [small_limit] in Hlim; lia. Qed.
Lemma shl_total : forall ratio x, 1 <= ratio <= 2 ^ 25 -> 1 <= x < 2 ^ 64 -> exists mi, shl_ pf usize ratio (bt_bits x / 6) = Ret mi /\ ratio <= mi < 2 ^ 64.
Proof.
  intros ratio x Hr Hx. assert (Hb : 0 <= bt_bits x / 6 < 11).
  { unfold bt_bits. replace (x =? 0) with false by (symmetry; apply Z.eqb_neq; lia). assert (Z.log2 x < 64) by (apply Z.log2_lt_pow2; lia). pose proof (Z.log2_nonneg x).
    split; [apply Z.div_pos; lia | apply Z.div_lt_upper_bound; lia]. }
  unfold shl_, usize. replace ((0 <=? bt_bits x / 6) && (bt_bits x / 6 <? 64)) with true by (symmetry; apply andb_true_iff; split; [apply Z.leb_le | apply Z.ltb_lt]; lia).
  eexists. split; [reflexivity|]. rewrite Z.shiftl_mul_pow2 by lia.
  assert (2 ^ (bt_bits x / 6) <= 2 ^ 11) by (apply Z.pow_le_mono_r; lia). assert (0 < 2 ^ (bt_bits x / 6)) by (apply Z.pow_pos_nonneg; lia).
  change (2 ^ 11) with 2048 in *. change (2 ^ 25) with 33554432 in *. rewrite Z.mod_small by nia. nia.
Qed.
Lemma squfof_multi_total : forall ks ratio, 1 <= ratio <= 2 ^ 25 -> (forall k, In k ks -> In k SQUFOF_MULTIPLIERS) ->
  run False False (fun o => forall d, o = Some d -> proper_divisor d target) (squfof_multi f pf fuel u64 ks target ratio).
Proof.
  pose proof Hc as [Hn _]. induction ks as [|k ks IH]; intros ratio Hr Hks; cbn [squfof_multi].
  - cbn [run]. discriminate.
  - assert (Hk : In k SQUFOF_MULTIPLIERS) by (apply Hks; left; reflexivity).
    assert (IH' : run False False (fun o => forall d, o = Some d -> proper_divisor d target) (squfof_multi f pf fuel u64 ks target ratio)) by (apply IH; [exact Hr|]; intros q Hq; apply Hks; right; exact Hq).
    destruct (checked u64 (target * k)) as [mt|] eqn:Ec; [|exact IH'].
    apply checked_inv in Ec. destruct Ec as [Em Hrg]. destruct (multipliers_divide k Hk) as [Hk0 _]. cbn [u64 in_range] in Hrg.
    assert (S1 : 0 <= Z.sqrt mt < 2 ^ 32) by (split; [apply Z.sqrt_nonneg | apply Z.sqrt_lt_square; lia]).
    assert (S2 : 0 <= Z.sqrt (Z.sqrt mt) < 2 ^ 16) by (split; [apply Z.sqrt_nonneg | apply Z.sqrt_lt_square; lia]). unfold ext_sqrt.
    change (2 ^ 16) with 65536 in S2. change (2 ^ 25) with 33554432 in Hr.
    rewrite mul_ok by (cbn [usize in_range]; lia). cbn [bind]. rewrite mul_ok by (cbn [usize in_range]; nia). cbn [bind].
    apply run_bind. eapply run_mono; [apply squfof_total | tauto | tauto |].
    + cbn; lia. + lia. + nia. + cbn [u64 in_range]. lia. + exists k. lia. + nia.
    + intros [r C]. apply Hsq. apply (coprime_square k target r); [lia | lia | eapply cofactor_multiplier; eassumption | nia].
    + change (2 ^ 65) with (2 * 2 ^ 64) in Hfuel. lia.
    + intros [[d|] i] [_ H]; cbn [fst] in H; [|exact IH']. cbn [run]. exact H.
Qed.

Lemma method_total : forall i ratio dr, 0 <= i < 1000 -> 1 <= ratio <= 2 ^ 25 -> (2 <= length dr)%nat ->
  run False False (fun r => match r with
      | Done x => proper_divisor (fst x) target /\ (length dr <= length (snd x) + 2)%nat
      | Next (i', ratio', dr') => i' = i + 1 /\ ratio' = (if (i + 1) mod 3 =? 0 then ratio * 2 else ratio) /\
          Z.of_nat (length dr') = Z.of_nat (length dr) - (if i mod 3 =? 0 then 2 else 0) /\ (i mod 3 = 1 -> ratio <= pass_limit f) end)
    (method_step f pf fuel 64 target (i, ratio, dr)).
Proof.
  intros i ratio dr Hi Hr Hdr. pose proof Hc as [Hn _]. pose proof lim37 as H37. change (2 ^ 37) with 137438953472 in H37. unfold method_step.
  apply run_bind. apply (run_mono _ False False _ _ (fun x => (forall d, fst x = Some d -> proper_divisor d target) /\ Z.of_nat (length (snd x)) = Z.of_nat (length dr) - (if i mod 3 =? 0 then 2 else 0) /\ (i mod 3 = 1 -> pass_limit f < ratio -> fst x <> None))).
  - destruct (Z.eqb_spec (i mod 3) 0) as [E0|N0].
    + destruct dr as [|x1 dr]; [cbn in Hdr; lia|]. cbn [draw bind]. destruct dr as [|x2 dr]; [cbn in Hdr; lia|]. cbn [draw bind].
      unfold reduced_new. rewrite (cofactor_odd f 64 target Hc). cbn [bind]. destruct (shl_total ratio target Hr ltac:(lia)) as [mi [-> Hmi]]. cbn [bind].
      pose proof (Z.mod_pos_bound (x1 mod 2 ^ 64) target ltac:(lia)) as B1. pose proof (Z.mod_pos_bound (x2 mod 2 ^ 64) target ltac:(lia)) as B2.
      assert (Hin : in_range (U 64) target) by (cbn [in_range]; lia).
      rewrite (pollard_rho_mint f pf (U 64) target _ ltac:(cbn; lia) Hin ltac:(lia) (cofactor_odd f 64 target Hc) _ mi B1).
      destruct (pollard_rho_spec f pf (U 64) ltac:(cbn; lia) target ((x1 mod 2 ^ 64) mod target) ((x2 mod 2 ^ 64) mod target) mi Hin ltac:(lia)) as [o [j [-> [_ H]]]]; [cbn [in_range]; lia | lia |].
      cbn [bind run fst snd length]. split; [destruct o as [d|]; cbn [option_map mint_val]; [exact H | discriminate]|]. split; [lia | intros C; lia].
    + destruct (Z.eqb_spec (i mod 3) 1) as [E1|N1].
      * assert (Hmt : in_range u64 (target * 480)) by (cbn [u64 in_range]; lia).
        replace (checked (U 64) (target * 480)) with (Some (target * 480)).
        2:{ symmetry. destruct (checked (U 64) (target * 480)) as [m|] eqn:E; [apply checked_inv in E; destruct E as [-> _]; reflexivity | apply checked_none in E; exfalso; apply E; exact Hmt]. }
        destruct (shl_total ratio (target * 480) Hr ltac:(lia)) as [mi [-> Hmi]]. cbn [bind].
        destruct (small_hit f target Hc Hlim Np Hsq Hcb) as [i0 [d0 [Hi0 [Hh Hsafe]]]]. replace (480 * target) with (target * 480) in Hh, Hsafe by ring.
        pose proof (one_line_first f pf u64 target (target * 480) mi ltac:(cbn; lia) ltac:(lia) ltac:(lia) Hmt (Z.divide_factor_l _ _) ltac:(lia)) as R.
        apply run_bind. apply (run_mono _ False False _ _ (fun x : option Z * Z => (forall d, fst x = Some d -> proper_divisor d target) /\ (pass_limit f < ratio -> fst x <> None))).
        -- eapply run_mono; [exact R | | tauto |].
           ++ intros [_ [j [Hj [Hun Hno]]]]. apply Hun. cbn [u64 ol_safe]. change (64 / 2) with 32. destruct (Z.lt_ge_cases i0 j) as [L|L]; [exfalso; apply (Hno i0 d0); [lia | exact Hh]|].
              eapply Z.le_lt_trans; [|exact Hsafe]. apply Z.mul_le_mono_nonneg_r; lia.
           ++ intros [o j] H. cbn [fst snd] in *. destruct o as [d|].
              ** destruct H as [_ [[t [_ [_ [Ed [D1 D2]]]]] _]]. split; [|discriminate]. intros d' E'. injection E' as <-. subst d. apply gcd_proper_l; [lia | exact D1 | exact D2].
              ** split; [discriminate|]. intros C. exfalso. apply (H i0 d0); [lia | | exact Hh]. cbn [u64 in_range]. lia.
        -- tauto.
        -- tauto.
        -- intros [o j] [A B]. cbn [fst] in A, B. cbn [run fst snd]. split; [exact A|]. split; [lia | intros _; exact B].
      * apply run_bind. eapply run_mono; [apply squfof_multi_total; [exact Hr | auto] | tauto | tauto |]. intros o H. cbn [run fst snd]. split; [exact H|]. split; [lia | intros C; lia].
  - tauto.
  - tauto.
  - intros [o dr'] [A [B C]]. cbn [fst snd] in A, B, C. destruct o as [d|]; [cbn [run fst snd]; split; [apply A; reflexivity | destruct (i mod 3 =? 0); lia]|].
    rewrite add_ok by (cbn [usize in_range]; lia). cbn [bind].
    assert (G : (if (i + 1) mod 3 =? 0 then mul_ pf usize ratio 2 else Ret ratio) = Ret (if (i + 1) mod 3 =? 0 then ratio * 2 else ratio)).
    { destruct ((i + 1) mod 3 =? 0); [|reflexivity]. apply mul_ok. cbn [usize in_range]. change (2 ^ 25) with 33554432 in Hr. lia. }
    rewrite G. cbn [bind run]. split; [reflexivity|]. split; [reflexivity|]. split; [exact B|]. intros E. apply Z.nlt_ge. intros L. exact (C E L eq_refl).
Qed.

Lemma find_total : forall dr, (60 <= length dr)%nat ->
  exists d dr', find_divisor f pf fuel 64 target dr = Ret (d, dr') /\ proper_divisor d target /\ (length dr <= length dr' + 60)%nat.
Proof.
  intros dr Hdr. pose (I := fun (k : Z) (st : Z * Z * draws) => let '(i, ratio, d) := st in i = k /\ k <= 76 /\ ratio = 2 ^ (k / 3) /\ Z.of_nat (length d) = Z.of_nat (length dr) - 2 * ((k + 2) / 3)).
  assert (R : run False False (fun x => proper_divisor (fst x) target /\ (length dr <= length (snd x) + 60)%nat) (find_divisor f pf fuel 64 target dr)).
  { unfold find_divisor, loop. apply run_bind. eapply run_mono; [apply (run_iter_count _ _ False False I (fun _ x => proper_divisor (fst x) target /\ (length dr <= length (snd x) + 60)%nat)); [lia | | ] | tauto | tauto |].
    - cbn [I]. change (2 ^ (0 / 3)) with 1. change ((0 + 2) / 3) with 0. lia.
    - intros k [[i ratio] d] Hk [-> [Hk2 [Er El]]].
      assert (Hr : 1 <= ratio <= 2 ^ 25). { subst ratio. split; [assert (0 < 2 ^ (k / 3)) by (apply Z.pow_pos_nonneg; [lia | apply Z.div_pos; lia]); lia|]. apply Z.pow_le_mono_r; [lia|]. apply Z.lt_succ_r. apply Z.div_lt_upper_bound; lia. }
      pose proof (Z.div_mod k 3 ltac:(lia)) as D3. pose proof (Z.mod_pos_bound k 3 ltac:(lia)) as B3. pose proof (Z.div_mod (k + 2) 3 ltac:(lia)) as D2. pose proof (Z.mod_pos_bound (k + 2) 3 ltac:(lia)) as B2.
      pose proof (Z.div_mod (k + 1 + 2) 3 ltac:(lia)) as D4. pose proof (Z.mod_pos_bound (k + 1 + 2) 3 ltac:(lia)) as B4. pose proof (Z.div_mod (k + 1) 3 ltac:(lia)) as D5. pose proof (Z.mod_pos_bound (k + 1) 3 ltac:(lia)) as B5.
      eapply run_mono; [apply (method_total k ratio d); [lia | exact Hr | lia] | tauto | tauto |].
      intros [[[i' ratio'] d']|x].
      + intros [-> [Er' [El' Hlast]]]. unfold I. split; [reflexivity|]. split; [|split].
        * destruct (Z.eq_dec k 76) as [->|]; [|lia]. exfalso. assert (Hp : pass_limit f < 2 ^ 25) by (destruct f; cbn; lia). specialize (Hlast eq_refl). rewrite Er in Hlast. change (76 / 3) with 25 in Hlast. lia.
        * rewrite Er', Er. destruct (Z.eqb_spec ((k + 1) mod 3) 0) as [E|E].
          -- replace ((k + 1) / 3) with (k / 3 + 1) by lia. rewrite Z.pow_add_r, Z.pow_1_r by (try apply Z.div_pos; lia). reflexivity.
          -- f_equal. lia.
        * rewrite El', El. destruct (Z.eqb_spec (k mod 3) 0); lia.
      + intros [A B]. split; [exact A|]. lia.
    - intros [[[i ratio] d]|x] H; cbn beta iota in *.
      + cbn [I] in H. exfalso. change (2 ^ 65) with (2 * 2 ^ 64) in Hfuel. lia.
      + cbn [run]. destruct H as [k [_ H]]. exact H. }
  apply run_total in R. destruct R as [[d dr'] [E [A B]]]. exists d, dr'. cbn [fst snd] in *. auto.
Qed.
End Always.

(** ** The work list *)
Section Adv.
Variables (f : feature) (pf : profile) (fuel P : Z).
Hypothesis (HP : 1 <= P < small_limit f).
Hypothesis (Hfuel : 2 ^ 65 <= fuel).

Lemma lim128 : small_limit f < 2 ^ 64.
Proof. destruct f; cbn [small_limit]; lia. Qed.

Lemma adv64_step_always : forall n e todo factored dr, adv_inv f P ((n, e) :: todo, factored, dr) -> (60 <= length dr)%nat ->
  exists todo' factored' dr', adv64_step f pf fuel ((n, e) :: todo, factored, dr) = Ret (Next (todo', factored', dr')) /\
    weights todo' + 1 <= weights ((n, e) :: todo) /\ (length dr <= length dr' + 60)%nat.
Proof.
  intros n e todo factored dr [Ht [Hf E]] Hdr. inversion Ht as [|x l [Hc He] Ht']; subst x l. cbn [fst snd] in Hc, He. cbn [prod_powers] in E.
  pose proof (cofactor_odd f 64 n Hc) as Ho. pose proof (cofactor_ge f 64 n Hc) as Hge. pose proof (next_ge f) as Hnx. pose proof Hc as [Hn _].
  pose proof (entry64_pos f todo Ht') as T1. pose proof lim128 as L128.
  assert (F1 : 1 <= prod_powers factored) by (apply (entry64_pos f); eapply Forall_impl; [|exact Hf]; cbn beta; tauto).
  assert (He' : e < 128) by (apply (exponent_small P ltac:(lia) n e (prod_powers todo * prod_powers factored)); [lia | lia | nia | lia]).
  assert (HnP : n <= P). { assert (n <= n ^ e) by (rewrite <- (Z.pow_1_r n) at 1; apply Z.pow_le_mono_r; lia).
    set (A := n ^ e) in *. set (T := prod_powers todo) in *. set (F := prod_powers factored) in *. clearbody A T F. assert (A <= A * T) by nia. assert (A * T <= A * T * F) by nia. lia. }
  cbn [weights]. pose proof (weight_pos n e ltac:(lia)) as W1.
  assert (Hm := miller64_law f pf n ltac:(lia) Ho).
  destruct (forallb (z_sprp n) (miller_bases f n)) eqn:Em.
  { exists todo, (factored ++ [(n, e)]), dr. split; [|split; lia]. cbn [adv64_step]. rewrite Hm. reflexivity. }
  destruct (sqrt_exact_lawful f pf u64 n) as [o [Eo Hr]]; [cbn [in_range u64]; lia | lia|].
  destruct o as [d|]; cbn [exact_root] in Hr.
  { destruct Hr as [Hd0 Hd]. rewrite Z.pow_2_r in Hd. assert (Hd1 : 1 < d) by nia.
    exists ((d, e * 2) :: todo), factored, dr. split; [|split; [|lia]].
    - cbn [adv64_step]. rewrite Hm. cbn [bind]. rewrite Eo. cbn [bind]. rewrite mul_ok by (cbn [usize in_range]; lia). reflexivity.
    - cbn [weights]. pose proof (weight_split d d (e * 2) (e * 2) e Hd1 Hd1) as W. rewrite Hd in W. pose proof (weight_pos d (e * 2) Hd1). lia. }
  destruct (nth_root_exact_nonneg n 3) as [o [Eo3 Hr3]]; [lia | lia|]. destruct o as [d|].
  { destruct Hr3 as [Hd0 Hd]. assert (Ed : d ^ 3 = d * (d * d)) by ring. assert (Hd1 : 1 < d) by nia.
    exists ((d, e * 3) :: todo), factored, dr. split; [|split; [|lia]].
    - cbn [adv64_step]. rewrite Hm. cbn [bind]. rewrite Eo. cbn [bind cbrt_exact u64]. unfold cbrt_exact_prim. rewrite Eo3. cbn [bind].
      rewrite mul_ok by (cbn [usize in_range]; lia). reflexivity.
    - cbn [weights]. pose proof (weight_split d (d * d) (e * 3) 1 e Hd1 ltac:(nia)) as W. rewrite <- Ed, Hd in W. pose proof (weight_pos (d * d) 1 ltac:(nia)). lia. }
  assert (Np : ~ prime n).
  { intros Pn. assert (Hall : forallb (z_sprp n) (miller_bases f n) = true); [|congruence].
    apply forallb_forall. intros a Ha. apply z_sprp_spec; [lia | exact Ho|]. apply prime_strong_prp; [exact Pn | exact Ho |]. apply (miller_bases_coprime f); [exact Pn | lia | exact Ha]. }
  destruct (find_total f pf fuel n Hfuel Hc ltac:(lia) Np) with (dr := dr) as [d [dr' [Ef [Hd Hl]]]].
  - intros [s Es]. apply (Hr (Z.abs s) ltac:(lia)). rewrite Z.pow_2_r, Z.abs_square. exact Es.
  - intros [s Es]. assert (0 <= s) by (destruct (Z.lt_ge_cases s 0); [exfalso; assert (s ^ 3 = s * (s * s)) by ring; nia | lia]). apply (Hr3 s ltac:(lia)). exact Es.
  - exact Hdr.
  - pose proof Hd as [D1 [D2 [c D3]]]. assert (Hc1 : 1 < c) by nia.
    exists ((c, e) :: (d, e) :: todo), factored, dr'. split; [|split; [|exact Hl]].
    + cbn [adv64_step]. rewrite Hm. cbn [bind]. rewrite Eo. cbn [bind cbrt_exact u64]. unfold cbrt_exact_prim. rewrite Eo3. cbn [bind].
      rewrite Ef. cbn [bind]. rewrite div_ok by lia. cbn [bind].
      replace (n / d) with c by (rewrite D3, Z.div_mul; lia). reflexivity.
    + cbn [weights]. pose proof (weight_split c d e e e Hc1 D1) as W. rewrite <- D3 in W. lia.
Qed.

Lemma adv64_always : forall k : nat, forall todo factored dr fl, adv_inv f P (todo, factored, dr) -> weights todo <= Z.of_nat k -> Z.of_nat k < fl -> (60 * k <= length dr)%nat ->
  exists fs dr', loop fl (adv64_step f pf fuel) (todo, factored, dr) = Ret (fs, dr').
Proof.
  pose proof lim128 as L128.
  induction k as [|k IH]; intros todo factored dr fl HI Hw Hfl Hdr.
  - destruct todo as [|[n e] todo].
    + exists factored, dr. unfold loop. replace fl with (fl - 1 + 1) by lia. rewrite iter_succ by lia. reflexivity.
    + exfalso. destruct HI as [Ht _]. pose proof (entries64 f _ Ht) as H. inversion H; subst. cbn [fst] in *. cbn [weights] in Hw.
      pose proof (weight_pos n e ltac:(assumption)). pose proof (weights_pos todo ltac:(assumption)). lia.
  - destruct todo as [|[n e] todo].
    + exists factored, dr. unfold loop. replace fl with (fl - 1 + 1) by lia. rewrite iter_succ by lia. reflexivity.
    + destruct (adv64_step_always n e todo factored dr HI ltac:(lia)) as [todo' [factored' [dr' [Hstep [Hdec Hl]]]]].
      assert (HI' : adv_inv f P (todo', factored', dr')).
      { pose proof (adv64_step_spec f pf fuel P ltac:(lia) ((n, e) :: todo, factored, dr)) as R. rewrite Hstep in R. cbn [run] in R. apply R. exact HI. }
      destruct (IH todo' factored' dr' (fl - 1) HI' ltac:(lia) ltac:(lia) ltac:(lia)) as [fs [dr2 Hrun]].
      exists fs, dr2. unfold loop in *. replace fl with (fl - 1 + 1) by lia. rewrite iter_succ by lia. rewrite Hstep. cbn [kbind bind]. exact Hrun.
Qed.
End Adv.

(** all prime factors of [s] are in the table; what the table leaves of [s * q] divides [q] *)
Lemma cofactor_divides : forall f w n s q rsd, n = s * q -> 1 <= s -> 1 <= q -> (forall p, prime p -> (p | s) -> p < SMALL_PRIMES_NEXT f) -> cofactor f w rsd -> (rsd | n) -> rsd <= q.
Proof.
  intros f w n s q rsd En Hs Hq Hsm [Hr Hc] D. apply Z.divide_pos_le; [lia|]. apply (Gauss rsd s q); [rewrite <- En; exact D|]. apply Zgcd_1_rel_prime. apply small_coprime; [lia|].
  intros p Pp D1 D2. apply (Hc p Pp); [apply Hsm; assumption | exact D1].
Qed.
Lemma factorize64_always : forall f pf fuel n s q dr, 2 ^ 65 <= fuel -> 1 <= n < 2 ^ 64 -> n = s * q -> 1 <= s -> 1 <= q < small_limit f -> (forall p, prime p -> (p | s) -> p < SMALL_PRIMES_NEXT f) ->
  7680 <= Z.of_nat (length dr) -> exists m dr', factorize64 f pf fuel n dr = Ret (m, dr').
Proof.
  intros f pf fuel n s q dr Hf Hn En Hs Hq Hsm Hdr. assert (Hf' : 129 < fuel) by (change (2 ^ 65) with (2 * 2 ^ 64) in Hf; lia).
  destruct (factorize64_cases f pf fuel Hf' n dr Hn) as [[_ [_ ->]]|[[_ [m [_ ->]]]|[_ [res [rsd [W [P [K [C ->]]]]]]]]]; [eauto | eauto |].
  pose proof C as [Cr _]. pose proof (cofactor_divides f 64 n s q rsd En Hs ltac:(lia) Hsm C ltac:(exists (prod_powers res); lia)) as Hrq.
  destruct (adv64_always f pf fuel rsd ltac:(lia) Hf 128 [(rsd, 1)] [] dr fuel) as [fs [dr' E]].
  - split; [constructor; [split; [exact C | cbn; lia] | constructor]|]. split; [constructor|]. cbn [prod_powers]. rewrite Z.pow_1_r. lia.
  - cbn [weights]. pose proof (weight_bound 64 rsd 1 ltac:(lia) ltac:(lia)). lia.
  - lia.
  - lia.
  - unfold factorize64_advanced. rewrite E. cbn [bind]. eauto.
Qed.
Lemma factorize128_always : forall f pf lf fuel n s q (dr : draws), 2 ^ 65 <= fuel -> 1 <= n < 2 ^ 128 -> n = s * q -> 1 <= s -> 1 <= q < small_limit f -> (forall p, prime p -> (p | s) -> p < SMALL_PRIMES_NEXT f) ->
  7680 <= Z.of_nat (length dr) -> exists m dr', factorize128 f pf lf fuel n dr = Ret (m, dr').
Proof.
  intros f pf lf fuel n s q dr Hf Hn En Hs Hq Hsm Hdr. assert (Hf' : 129 < fuel) by (change (2 ^ 65) with (2 * 2 ^ 64) in Hf; lia). assert (L128 : small_limit f < 2 ^ 64) by (destruct f; cbn [small_limit]; lia).
  unfold factorize128. destruct (Z.ltb_spec n (2 ^ 64)) as [L|L]; [eapply factorize64_always; try eassumption; lia|].
  unfold bt_trailing_zeros. replace (n =? 0) with false by (symmetry; apply Z.eqb_neq; lia). cbv zeta.
  assert (Hin : in_range u128 n) by (cbn [u128 in_range]; lia). destruct (shr_ztz pf u128 n Hin ltac:(lia)) as [-> _]. cbn [bind].
  destruct (table_stage f fuel true None n Hn Hf') as [res [rsd [fac [-> [W [P [R [K [F T]]]]]]]]]. cbn [bind].
  destruct fac; [eauto|]. specialize (F eq_refl). pose proof F as [F1 F2].
  pose proof (cofactor_divides f 128 n s q rsd En Hs ltac:(lia) Hsm F ltac:(exists (prod_powers res); lia)) as Hrq.
  unfold factorize128_advanced, route. replace (rsd <? 2 ^ 64) with true by (symmetry; apply Z.ltb_lt; lia). cbv beta iota zeta.
  assert (El : loop fuel (adv128_step f pf lf fuel) ([], [(rsd, 1)], [], dr : draws) = Ret ([(rsd, 1)], [], dr)) by (unfold loop; replace fuel with (fuel - 1 + 1) at 1 by lia; rewrite iter_succ by lia; reflexivity).
  rewrite El. cbn [bind].
  destruct (adv64_always f pf fuel rsd ltac:(lia) Hf 128 [(rsd, 1)] [] dr fuel) as [fs [dr' E]].
  - split; [constructor; [split; [split; [cbn [fst]; lia | exact F2] | cbn; lia] | constructor]|]. split; [constructor|]. cbn [prod_powers]. rewrite Z.pow_1_r. lia.
  - cbn [weights]. pose proof (weight_bound 64 rsd 1 ltac:(lia) ltac:(lia)). lia.
  - lia.
  - lia.
  - unfold factorize64_advanced. rewrite E. cbn [bind]. eauto.
Qed.
