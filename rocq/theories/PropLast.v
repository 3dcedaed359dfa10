(** * C81: the last prime of each machine type. *)
From Coq Require Import ZArith Znumtheory Zpow_facts List Lia Bool.
From Verif Require Import Base Tables Spec Ext NT NTPock PBase PTables MInteger PInteger Ops POps MPrimality MTraits PSprp MFactor MSieve MIsPrime PBuffer PIsPrime PIsPrime2 PropIsPrime PNext PropNext PropHier.
Import ListNotations.
Local Open Scope Z_scope.

Lemma prime_4294967291 : prime 4294967291.
Proof. apply (pocklington _ [(22605091, 1, 2)]); [vm_compute; reflexivity | nodup|]. constructor; [small_prime|]. constructor. Qed.
Lemma prime_5594472617641 : prime 5594472617641.
Proof. apply (pocklington _ [(15331, 1, 2); (2131, 1, 2)]); [vm_compute; reflexivity | nodup|]. constructor; [small_prime|]. constructor; [small_prime|]. constructor. Qed.
Lemma prime_last64 : prime (2 ^ 64 - 59).
Proof. change (2 ^ 64 - 59) with 18446744073709551557. apply (pocklington _ [(5594472617641, 1, 2)]); [vm_compute; reflexivity | nodup|]. constructor; [exact prime_5594472617641|]. constructor. Qed.
Lemma prime_62826870453001 : prime 62826870453001.
Proof. apply (pocklington _ [(21821, 1, 2); (13147, 1, 2)]); [vm_compute; reflexivity | nodup|]. constructor; [small_prime|]. constructor; [small_prime|]. constructor. Qed.
Lemma prime_last128 : prime (2 ^ 128 - 159).
Proof.
  change (2 ^ 128 - 159) with 340282366920938463463374607431768211297. apply (pocklington _ [(62826870453001, 1, 3); (42113237, 1, 3)]); [vm_compute; reflexivity | nodup|].
  constructor; [exact prime_62826870453001|]. constructor; [small_prime|]. constructor.
Qed.

(** The widths up to 64 bits with their last primes. *)
Definition last64 : list (Z * Z) := [(8, 251); (16, 65521); (32, 4294967291); (64, 18446744073709551557)].
Definition above (w l : Z) : list Z := map (fun k => l + 1 + Z.of_nat k) (seq 0 (Z.to_nat (2 ^ w - 1 - l))).
Lemma above_in : forall w l x, l < x < 2 ^ w -> In x (above w l).
Proof. intros w l x H. unfold above. apply in_map_iff. exists (Z.to_nat (x - l - 1)). split; [lia|]. apply in_seq. lia. Qed.
Lemma rejected : forall f x w l, In (w, l) last64 -> l < x < 2 ^ w -> z_is_prime64 f x = false.
Proof.
  assert (S : forall f, forallb (fun '(w, l) => forallb (fun x => match is_prime64 f Release x with Ret b => negb b | _ => false end) (above w l)) last64 = true) by (intros []; vm_compute; reflexivity).
  intros f x w l Hin Hx. specialize (S f). rewrite forallb_forall in S. specialize (S _ Hin). cbv beta iota in S. rewrite forallb_forall in S. specialize (S _ (above_in _ _ _ Hx)). cbv beta in S.
  rewrite is_prime64_law in S.
  - destruct (z_is_prime64 f x); [discriminate | reflexivity].
  - assert (2 ^ w <= 2 ^ 64); [|lia]. apply Z.pow_le_mono_r; [lia|]. cbn in Hin. repeat (destruct Hin as [E|Hin]; [injection E; lia|]). contradiction.
Qed.
Lemma last64_prime : forall w l, In (w, l) last64 -> prime l /\ l < 2 ^ w /\ valid_ity (U w) /\ w <= 64 /\ 251 <= l.
Proof.
  intros w l H. cbn in H. destruct H as [E|[E|[E|[E|[]]]]]; injection E as <- <-; (split; [|split; [reflexivity | split; [cbn; lia | lia]]]).
  - small_prime.
  - small_prime.
  - exact prime_4294967291.
  - exact prime_last64.
Qed.
(** A divisor d of every odd number behind 2^128 - 159 with 2^(x-1) <> 1 mod d. *)
Definition divisors128 : list Z :=
  [11; 47; 443; 7; 469917661; 227; 34949; 59; 5; 13; 7; 233; 41; 127; 347; 422899;
   340282366920938463463374607431768211331; 149; 5; 53; 3348359557; 2213; 11; 3335992271; 7; 37; 23; 191; 5; 19; 2019574399; 7;
   509; 11; 5233; 26175566686226035651028815956289862413; 281; 29; 5; 14537; 73; 4931; 61; 6883; 11; 7; 1273267; 167;
   5; 23; 797; 9967; 7; 41; 2881943; 11; 16139; 243799; 5; 31; 69847; 13; 37; 123848273;
   71; 628547; 7; 19; 5; 811; 103981765991; 472838777; 53; 7; 13; 523; 169909; 11; 5].
Lemma strong128 : forall x, 2 ^ 128 - 159 < x < 2 ^ 128 -> Z.odd x = true -> ~ strong_prp x 2.
Proof.
  assert (S : forallb (fun '(k, d) => let x := 2 ^ 128 - 157 + 2 * Z.of_nat k in (1 <? d) && (x mod d =? 0) && negb (Zpow_mod 2 (x - 1) d =? 1)) (combine (seq 0 79) divisors128) = true) by (vm_compute; reflexivity).
  assert (D : forall k, (k < 79)%nat -> exists d, In (k, d) (combine (seq 0 79) divisors128)).
  { intros k Hk. assert (Hl : length divisors128 = 79%nat) by reflexivity. exists (nth k divisors128 0).
    assert (E : nth k (combine (seq 0 79) divisors128) (O, 0) = (k, nth k divisors128 0)) by (rewrite combine_nth by (rewrite seq_length, Hl; reflexivity); rewrite seq_nth by lia; reflexivity).
    rewrite <- E. apply nth_In. rewrite combine_length, seq_length, Hl. cbn. lia. }
  intros x Hx Ho Hs. assert (B : 2 ^ 128 - 159 > 3) by reflexivity. assert (Eb : 2 ^ 128 = 2 * 2 ^ 127) by reflexivity.
  apply Z.odd_spec in Ho. destruct Ho as [m Em]. pose (k := Z.to_nat ((x - (2 ^ 128 - 157)) / 2)).
  assert (Ex : x = 2 ^ 128 - 157 + 2 * Z.of_nat k). { unfold k. subst x. rewrite Eb in *. replace (2 * m + 1 - (2 * 2 ^ 127 - 157)) with ((m + 79 - 2 ^ 127) * 2) by ring. rewrite Z.div_mul by lia. lia. }
  destruct (D k ltac:(lia)) as [d Hd]. rewrite forallb_forall in S. specialize (S _ Hd). cbv beta iota zeta in S. rewrite <- Ex in S. apply andb_prop in S. destruct S as [S S3]. apply andb_prop in S. destruct S as [S1 S2].
  apply Z.ltb_lt in S1. apply Z.eqb_eq in S2. apply strong_is_fermat in Hs; [|lia]. unfold fermat_prp in Hs. rewrite Zpow_mod_correct in S3 by lia. apply negb_true_iff, Z.eqb_neq in S3. apply S3.
  apply Z.mod_divide in S2; [|lia]. destruct S2 as [c S2]. rewrite Z.mod_1_l in Hs by lia. rewrite (Z.div_mod (2 ^ (x - 1)) x), Hs by lia. rewrite S2 at 1. replace (c * d * (2 ^ (x - 1) / x) + 1) with (1 + (c * (2 ^ (x - 1) / x)) * d) by ring.
  rewrite Z.mod_add by lia. apply Z.mod_1_l. lia.
Qed.
(** a configuration with at least one fixed base, as None and all presets have *)
Lemma rejected128 : forall f pf lf config x d d', match config with Some c => 0 < sprp_trials c | None => True end -> 2 ^ 128 - 159 < x < 2 ^ 128 ->
  prime_probably f pf (U 128) lf x config d <> Ret (true, d').
Proof.
  intros f pf lf config x d d' Hc Hx E. unfold prime_probably in E. apply bind_ret in E. destruct E as [[r e] [E F]]. injection F as F _.
  assert (B : 2 ^ 128 - 159 > 2 ^ 64) by reflexivity. assert (Hr : in_range (U 128) x) by (cbn [in_range]; lia). assert (Ht : valid_ity (U 128)) by (cbn; lia).
  destruct (Z.odd x) eqn:Ho.
  - pose proof (C14_is_prime_large f pf (U 128) x unit no_probs lf (buf_iter (buf_new f)) config d r e Ht Hr ltac:(lia) ltac:(intros w Hw; apply new_buf_range in Hw; lia) E) as [NY H].
    cbv zeta in H. specialize (H Ho). destruct H as [rnd [_ [_ [_ H]]]]. assert (N : r = No); [|subst r; discriminate]. apply H. left. exists 2. split; [|apply strong128; assumption].
    apply in_or_app. left. assert (T : firstn 1 (buf_iter (buf_new f)) = [2]) by apply table_firstn.
    match goal with |- In 2 (firstn (Z.to_nat ?k) _) => assert (K : (1 <= Z.to_nat k)%nat) by (destruct config as [c|]; [|cbn]; lia); destruct (Z.to_nat k) as [|m]; [lia|] end.
    destruct (buf_iter (buf_new f)) as [|y l]; cbn [firstn] in T |- *; [discriminate|]. injection T as ->. left. reflexivity.
  - unfold nt_is_prime in E. assert (Ev : Z.even x = true) by (rewrite <- Z.negb_odd, Ho; reflexivity).
    rewrite (is_prime_even f pf _ no_probs (U 128) _ _ _ (uops_lawful f pf (U 128)) Ht lf _ x x config d ltac:(split; auto) Ev) in E.
    replace (x =? 2) with false in E by (symmetry; apply Z.eqb_neq; lia). injection E as <- _. discriminate.
Qed.

Lemma rejected128_quiet : forall f pf lf c x d, 0 < sprp_trials c -> sprp_random_trials c <= 0 -> 2 ^ 128 - 159 < x < 2 ^ 128 ->
  prime_probably f pf (U 128) lf x (Some c) d = Ret (false, d).
Proof.
  intros f pf lf c x d Hc Hr Hx. assert (B : 2 ^ 128 - 159 > 2 ^ 64) by reflexivity. assert (Hin : in_range (U 128) x) by (cbn [in_range]; lia). assert (Ht : valid_ity (U 128)) by (cbn; lia).
  assert (VU : UV (U 128) x x) by (split; auto). unfold prime_probably, nt_is_prime. destruct (Z.odd x) eqn:Ho.
  - rewrite (is_prime_large f pf _ no_probs (U 128) _ _ _ (uops_lawful f pf (U 128)) Ht lf _ x x (Some c) d VU ltac:(cbv beta; lia) Ho ltac:(lia) ltac:(intros w Hw; apply new_buf_range in Hw; lia)).
    cbv zeta. cbn [the_config]. unfold draw_witnesses. replace (0 <? sprp_random_trials c) with false by (symmetry; apply Z.ltb_ge; lia). cbn [bind].
    assert (F : forallb (z_sprp x) (fixed_witnesses c (buf_iter (buf_new f))) = false); [|rewrite F; reflexivity].
    unfold fixed_witnesses. replace (0 <? sprp_trials c) with true by (symmetry; apply Z.ltb_lt; lia). assert (T : firstn 1 (buf_iter (buf_new f)) = [2]) by apply table_firstn.
    destruct (Z.to_nat (sprp_trials c)) as [|m] eqn:Em; [lia|]. destruct (buf_iter (buf_new f)) as [|y l]; cbn [firstn] in T |- *; [discriminate|]. injection T as ->. cbn [forallb].
    assert (N : z_sprp x 2 = false); [|rewrite N; reflexivity]. destruct (z_sprp x 2) eqn:N; [|reflexivity]. exfalso. apply z_sprp_spec in N; [|lia | exact Ho]. exact (strong128 x Hx Ho N).
  - assert (Ev : Z.even x = true) by (rewrite <- Z.negb_odd, Ho; reflexivity).
    rewrite (is_prime_even f pf _ no_probs (U 128) _ _ _ (uops_lawful f pf (U 128)) Ht lf _ x x (Some c) d VU Ev).
    replace (x =? 2) with false by (symmetry; apply Z.eqb_neq; lia). reflexivity.
Qed.

(** The last primes of the unsigned types, from the smallest to the largest. *)
Theorem C81_last_primes : forall w l, In (w, l) [(8, 251); (16, 65521); (32, 4294967291); (64, 18446744073709551557); (128, 340282366920938463463374607431768211297)] ->
  prime l /\ l < 2 ^ w /\ forall q, prime q -> q < 2 ^ w -> q <= l.
Proof.
  intros w l H. assert (C : In (w, l) last64 \/ (w, l) = (128, 2 ^ 128 - 159)) by (cbn in H |- *; change (2 ^ 128 - 159) with 340282366920938463463374607431768211297; intuition congruence). destruct C as [C|C].
  - destruct (last64_prime w l C) as [A [B _]]. split; [exact A|]. split; [exact B|]. intros q Pq Hq. destruct (Z.le_gt_cases q l) as [|G]; [assumption|]. exfalso.
    pose proof (rejected BigTable q w l C ltac:(lia)) as R. rewrite (z_is_prime64_complete BigTable q Pq) in R. discriminate.
  - injection C as -> ->. split; [exact prime_last128|]. split; [reflexivity|]. intros q Pq Hq. destruct (Z.le_gt_cases q (2 ^ 128 - 159)) as [|G]; [assumption|]. exfalso.
    assert (B : 2 ^ 128 - 159 > 3) by reflexivity. assert (Ho : Z.odd q = true) by (destruct (Z.odd q) eqn:Ho; [reflexivity|]; rewrite <- Z.negb_even, negb_false_iff in Ho; apply Z.even_spec in Ho; destruct Ho as [m Hm]; destruct (prime_divisors q Pq 2 ltac:(exists m; lia)) as [|[|[|]]]; lia).
    apply (strong128 q ltac:(lia) Ho). apply prime_strong_prp; [exact Pq | exact Ho | intros D; apply Z.divide_pos_le in D; lia].
Qed.
(** Up to 64 bits next_prime answers None exactly from the last prime of the type on; no test is ever fooled
    behind it. *)
Theorem C81_next_prime_none : forall w l f pf lf config fuel n dr, In (w, l) [(8, 251); (16, 65521); (32, 4294967291); (64, 18446744073709551557)] ->
  0 <= n < 2 ^ w -> Z.of_nat lf <= 2 ^ 31 -> ~ (f = SmallTable /\ 252 <= n <= 255) -> 2 ^ w - n < fuel ->
  exists o, next_prime f pf (U w) lf fuel n config dr = Ret (o, dr) /\ (o = None <-> l <= n).
Proof.
  intros w l f pf lf config fuel n dr H Hn Hlf Hg Hf. destruct (last64_prime w l H) as [A [B [V [W _]]]].
  destruct (C36_next_prime64 f pf w lf config fuel n dr V W Hn Hlf Hg Hf) as [o [E R]]. exists o. split; [exact E|]. destruct o as [p|].
  - split; [discriminate|]. intros Hl. exfalso. destruct R as [R1 [R2 _]]. assert (2 ^ w <= 2 ^ 64) by (apply Z.pow_le_mono_r; lia). rewrite is_prime64_law, (rejected f p w l H) in R2 by lia. discriminate.
  - split; [|reflexivity]. intros _. destruct (Z.le_gt_cases l n) as [|G]; [assumption|]. specialize (R l A ltac:(lia)). lia.
Qed.
(** prev_prime from any number behind the last prime finds the last prime. *)
Theorem C81_prev_prime_last : forall w l f pf lf config fuel n dr, In (w, l) [(8, 251); (16, 65521); (32, 4294967291); (64, 18446744073709551557)] ->
  l < n < 2 ^ w -> Z.of_nat lf <= 2 ^ 31 -> n < fuel -> prev_prime f pf (U w) lf fuel n config dr = Ret (Some l, dr).
Proof.
  intros w l f pf lf config fuel n dr H Hn Hlf Hf. destruct (last64_prime w l H) as [A [B [V [W L]]]]. assert (P64 : 2 ^ w <= 2 ^ 64) by (apply Z.pow_le_mono_r; lia).
  destruct (C37_prev_prime64 f pf (U w) lf config fuel n dr V ltac:(cbn [in_range]; lia) ltac:(lia) Hlf Hf) as [p [E [R1 [R2 R3]]]]. rewrite E. do 3 f_equal.
  destruct (Z.lt_trichotomy p l) as [C|[C|C]]; [|exact C|].
  - exfalso. apply (R3 l A). lia.
  - exfalso. rewrite is_prime64_law, (rejected f p w l H) in R2 by lia. discriminate.
Qed.
(** The same with 128 bits, for every answer that is given: the configuration has at least one fixed base (None
    and the presets do) and no random base is 0. *)
Theorem C81_next_prime128 : forall f pf lf config fuel n dr o dr', match config with Some c => 0 < sprp_trials c | None => True end -> 0 <= n < 2 ^ 128 -> Z.of_nat lf <= 2 ^ 31 ->
  (forall x, In x dr -> x mod 2 ^ 64 <> 0) -> next_prime f pf (U 128) lf fuel n config dr = Ret (o, dr') -> (o = None <-> 2 ^ 128 - 159 <= n).
Proof.
  intros f pf lf config fuel n dr o dr' Hc Hn Hlf Hd E.
  pose proof (C36_next_prime f pf (U 128) lf config fuel n dr o dr' ltac:(cbn; lia) Hn Hlf (or_introl Hd) E) as R. destruct o as [p|].
  - split; [discriminate|]. intros Hl. exfalso. destruct R as [R1 [R2 [[d [d' R3]] _]]]. cbn [in_range] in R2. apply (rejected128 f pf lf config p d d' Hc ltac:(lia) R3).
  - split; [|reflexivity]. intros _. destruct (Z.le_gt_cases (2 ^ 128 - 159) n) as [|G]; [assumption|]. exfalso. apply (R (2 ^ 128 - 159) prime_last128 ltac:(lia)); [vm_compute; reflexivity | cbn [in_range]; lia].
Qed.
(** Without random bases (the BPSW preset) the answer None is always given. *)
Theorem C81_next_prime128_none : forall f pf lf c fuel n dr, 0 < sprp_trials c -> sprp_random_trials c <= 0 -> 2 ^ 128 - 159 <= n < 2 ^ 128 -> 160 <= fuel ->
  next_prime f pf (U 128) lf fuel n (Some c) dr = Ret (None, dr).
Proof.
  intros f pf lf c fuel n dr Hc Hr Hn Hf. assert (B : 2 ^ 128 - 159 > 2 ^ 64) by reflexivity. assert (Ht : valid_ity (U 128)) by (cbn; lia).
  assert (Hin : in_range (U 128) n) by (cbn [in_range]; lia).
  destruct (next_prime_cases f pf (U 128) lf (Some c) Ht fuel n dr Hin ltac:(intros [_ G]; lia)) as [[p [[_ [Hp _]] [C _]]]|[_ [_ ->]]]; [exfalso; lia|].
  assert (R : run False False (fun x => x = (None, dr)) (loop fuel (next_step f pf (U 128) lf (Some c)) (n mod WHEEL_SIZE f, n, dr))).
  { apply (run_loop_measure _ _ False False (fun '(i, x, d) => i = x mod WHEEL_SIZE f /\ in_range (U 128) x /\ d = dr /\ n <= x) _ (fun '(i, x, d) => 2 ^ 128 - x)).
    - split; [reflexivity|]. split; [exact Hin|]. split; [reflexivity | lia].
    - lia.
    - intros [[i x] d] [-> [Hx [-> Hnx]]]. unfold next_step. destruct (next_jump f x) as [off [E [Bo H]]]. rewrite E. cbn [bind]. rewrite from_prim_ok by (apply valid_byte; [exact Ht | lia]). cbn [unwrap bind].
      destruct (checked (U 128) (x + off)) as [x'|] eqn:Ec; [|reflexivity]. apply checked_inv in Ec. destruct Ec as [-> Hx']. cbn [in_range] in Hx, Hx'. unfold ext_addm. pose proof (wheel_size_pos f). rewrite rem_ok by lia. cbn [bind].
      rewrite rejected128_quiet by (assumption || lia). cbn [bind run]. split; [|lia]. split; [rewrite Z.add_mod_idemp_l by lia; reflexivity|]. split; [exact Hx'|]. split; [reflexivity | lia]. }
  destruct (loop fuel _ _) as [[o d]| |]; cbn [run] in R; [rewrite R; reflexivity | destruct R | destruct R].
Qed.
Theorem C81_prev_prime128 : forall f pf lf config fuel n dr o dr', match config with Some c => 0 < sprp_trials c | None => True end -> 2 ^ 128 - 159 < n < 2 ^ 128 -> Z.of_nat lf <= 2 ^ 31 ->
  (forall x, In x dr -> x mod 2 ^ 64 <> 0) -> prev_prime f pf (U 128) lf fuel n config dr = Ret (o, dr') -> o = Some (2 ^ 128 - 159).
Proof.
  intros f pf lf config fuel n dr o dr' Hc Hn Hlf Hd E. assert (B : 2 ^ 128 - 159 > 3) by reflexivity.
  pose proof (C37_prev_prime f pf (U 128) lf config fuel n dr o dr' ltac:(cbn; lia) ltac:(cbn [in_range]; lia) Hlf (or_introl Hd) E) as R. destruct o as [p|]; [|lia].
  destruct R as [R1 [[d [d' R2]] R3]]. f_equal. destruct (Z.lt_trichotomy p (2 ^ 128 - 159)) as [C|[C|C]]; [|exact C|].
  - exfalso. apply (fun h => R3 h _ prime_last128 ltac:(lia)). assert (Z.log2 n < 128); [|lia]. apply Z.log2_lt_pow2; lia.
  - exfalso. apply (rejected128 f pf lf config p d d' Hc ltac:(lia) R2).
Qed.
(** 128 bit searches that do answer. *)
Example C81_case : (0 < sprp_trials pc_bpsw /\ sprp_random_trials pc_bpsw <= 0)
  /\ next_prime BigTable Release (U 128) 50 300 (2 ^ 128 - 160) (Some {| sprp_trials := 2; sprp_random_trials := 0; slprp_test := false; eslprp_test := false |}) [] = Ret (Some (2 ^ 128 - 159), [])
  /\ prev_prime BigTable Debug (U 128) 50 300 (2 ^ 128 - 157) None [5; 7; 9; 11; 13; 15] = Ret (Some (2 ^ 128 - 159), [11; 13; 15])
  /\ next_prime SmallTable Debug (U 32) 50 300 4294967290 None [] = Ret (Some 4294967291, []) /\ next_prime BigTable Debug (U 32) 50 300 4294967291 None [] = Ret (None, []).
Proof. split; [cbn; lia|]. split; [vm_compute; reflexivity|]. split; [vm_compute; reflexivity|]. split; vm_compute; reflexivity. Qed.

Print Assumptions C81_last_primes.
Print Assumptions C81_next_prime_none.
Print Assumptions C81_prev_prime_last.
Print Assumptions C81_next_prime128.
Print Assumptions C81_prev_prime128.
Print Assumptions C81_next_prime128_none.
