(** * The exhaustive search of PPsp3.v is sound, so the strong test to the bases 2, 7 and 61 is exact below 2^32. *)
From Coq Require Import ZArith Znumtheory List Lia Bool Sorted Zpow_facts Uint63.
From Verif Require Import Base Spec Ext NT PBase Tables PTables NTPock NTRabin PExact PPsp PPsp2 PPsp3.
Import ListNotations.
Local Open Scope Z_scope.
Local Notation V := Uint63.to_Z.

Lemma mod1_eqm : forall m x, 2 <= m -> (x mod m = 1 <-> (m | x - 1)).
Proof.
  intros m x Hm. split; intros H; [exists (x / m); pose proof (Z.div_mod x m ltac:(lia)); lia|]. destruct H as [c Hc]. replace x with (1 + c * m) by lia. rewrite Z.mod_add by lia. apply Z.mod_small. lia.
Qed.
(** ** A number that passes, and its prime factors *)
Section One.
Variable n : Z.
Hypothesis Hn : 62 <= n < 2 ^ 32.
Hypothesis On : Z.odd n = true.
Hypothesis S2 : strong_prp n 2.
Hypothesis S7 : strong_prp n 7.
Hypothesis S61 : strong_prp n 61.

Lemma fixed_n : fixed_by n (n - 1).
Proof. split; [|split]; apply mod1_eqm; try lia; apply strong_fermat; (lia || assumption). Qed.
Lemma fixed_div : forall p, (p | n) -> fixed_by p (n - 1).
Proof. intros p D. destruct fixed_n as [A [B C]]. split; [|split]; eapply eqm_divide; eassumption. Qed.
Lemma order_divides : forall p L, (p | n) -> order_of p L -> (L | n - 1).
Proof. intros p L D [_ H]. apply H; [lia | apply fixed_div, D]. Qed.
Lemma not_base : forall p, prime p -> (p | n) -> p <> 2 /\ p <> 7 /\ p <> 61.
Proof.
  intros p Pp D. destruct (fixed_div p D) as [A [B C]]. pose proof (prime_ge2 p Pp).
  assert (G : forall a, a ^ (n - 1) =[p]= 1 -> p <> a).
  { intros a Ha ->. destruct Ha as [c Hc]. replace (n - 1) with (Z.succ (n - 2)) in Hc by lia. rewrite Z.pow_succ_r in Hc by lia.
    assert (a * (a ^ (n - 2) - c) = 1) by lia. assert (a | 1) by (exists (a ^ (n - 2) - c); lia). apply Z.divide_1_r_nonneg in H1; lia. }
  split; [|split]; apply G; assumption.
Qed.
(** no square of a tabled prime divides n *)
Lemma square_fixed : forall p a, prime p -> (p * p | n) -> a ^ (n - 1) =[n]= 1 -> a ^ (p - 1) mod (p * p) = 1.
Proof.
  intros p a Pp D Ha. pose proof (prime_ge2 p Pp) as P2. assert (P4 : 2 * 2 <= p * p) by (apply Z.mul_le_mono_nonneg; lia). apply mod1_eqm; [lia|].
  assert (Dp : (p | n)) by (eapply Z.divide_trans; [apply Z.divide_factor_l | exact D]).
  assert (F : a ^ (p - 1) =[p]= 1).
  { apply NT.fermat; [exact Pp|]. intros C. destruct (eqm_divide n p _ _ Dp Ha) as [c Hc]. destruct C as [e ->]. replace (n - 1) with (Z.succ (n - 2)) in Hc by lia. rewrite Z.pow_succ_r in Hc by lia.
    assert (p | 1) by (exists (e * (e * p) ^ (n - 2) - c); lia). apply Z.divide_1_r_nonneg in H; lia. }
  destruct F as [k Hk]. assert (E : (1 + k * p) ^ (n - 1) =[p * p]= 1).
  { replace (1 + k * p) with (a ^ (p - 1)) by lia. rewrite <- Z.pow_mul_r by lia. replace ((p - 1) * (n - 1)) with ((n - 1) * (p - 1)) by ring. rewrite Z.pow_mul_r by lia. eapply eqm_trans; [apply eqm_pow, (eqm_divide n); [exact D | exact Ha]|]. rewrite Z.pow_1_l by lia. apply eqm_refl. }
  destruct (binom2 (Z.to_nat (n - 2)) 1 (k * p)) as [c Hc]. replace (Z.of_nat (S (Z.to_nat (n - 2)))) with (n - 1) in Hc by lia. rewrite !Z.pow_1_l in Hc by lia. destruct E as [e He]. destruct Dp as [f Hf].
  assert (K : (p | k)).
  { assert (K1 : (n - 1) * k * p = p * (e * p - c * k * k * p)) by (rewrite Hc in He; lia). assert (K2 : (n - 1) * k = e * p - c * k * k * p) by (apply (Z.mul_reg_r _ _ p); lia).
    exists (f * k - e + c * k * k). rewrite Hf in K2 at 1. lia. }
  destruct K as [g Hg]. exists g. rewrite Hk, Hg. ring.
Qed.
Lemma squarefree : forall p L, good p L -> ~ (V p * V p | n).
Proof. intros p L [Pp [_ [_ N]]] D. apply N. destruct fixed_n as [A [B _]]. split; apply square_fixed; assumption. Qed.

(** ** A cofactor the search tries *)
Lemma sub1 : forall x, 1 <= V x -> V (x - 1) = V x - 1.
Proof. intros x H. pose proof (to_Z_bounded x). rewrite sub_spec. change (V 1) with 1. apply Z.mod_small. lia. Qed.
Lemma chk_sound : forall P m, V P * V m = n -> 2 <= V m -> 11 <= V P -> (forall r, prime r -> (r | V m) -> 11 < r) -> chk P m = false.
Proof.
  intros P m E Hm HP Hr. assert (N : forall d, 1 < V d <= 11 -> prime (V d) -> (m mod d =? 0)%uint63 = false).
  { intros d Hd Pd. apply ieqbf. rewrite imod. change (V 0) with 0. intros C. apply Z.mod_divide in C; [|lia]. specialize (Hr _ Pd C). lia. }
  unfold chk. rewrite (N 3%uint63 ltac:(change (V 3) with 3; lia) prime_3).
  rewrite (N 5%uint63 ltac:(change (V 5) with 5; lia) ltac:(change (V 5) with 5; small_prime)).
  rewrite (N 7%uint63 ltac:(change (V 7) with 7; lia) ltac:(change (V 7) with 7; small_prime)).
  rewrite (N 11%uint63 ltac:(change (V 11) with 11; lia) ltac:(change (V 11) with 11; small_prime)).
  assert (En : V (P * m) = n) by (rewrite mul_spec, E; apply Z.mod_small; change wB with (2 ^ 63); lia). cbv zeta.
  assert (M31 : V m < 2 ^ 31). { assert (11 * V m <= V P * V m) by (apply Z.mul_le_mono_nonneg_r; lia). lia. }
  replace (pow2 6 (P * m - 1) m =? 1)%uint63 with true.
  2:{ symmetry. apply ieqb. rewrite pow2_spec; [|lia | rewrite sub1, En by lia; change (2 ^ (5 * Z.of_nat 6 + 5)) with (2 ^ 35); lia]. rewrite sub1, En by lia. change (V 1) with 1. apply mod1_eqm; [lia|]. apply (fixed_div (V m)). exists (V P). lia. }
  rewrite !strongi_spec; rewrite ?En; try assumption; try lia; (change (V 2) with 2 || change (V 7) with 7 || change (V 61) with 61); (assumption || lia).
Qed.
Lemma enum_spec : forall d P L mx h m i x, enum d P mx h m = true -> V h = (2 ^ Z.of_nat d * V L) / 2 -> (d <= 18)%nat -> 0 < V L < 2 ^ 40 -> V m < 2 ^ 62 -> V m + 2 ^ Z.of_nat d * V L < 2 ^ 62 -> 0 <= i < 2 ^ Z.of_nat d -> V x = V m + i * V L -> V x <= V mx -> chk P x = true.
Proof.
  induction d as [|d IH]; intros P L mx h m i x H Hh Hd HL Hm Hs Hi Ex Hx; cbn [enum] in H.
  - change (2 ^ Z.of_nat 0) with 1 in Hi. assert (i = 0) by lia. subst i. assert (x = m) by (apply to_Z_inj; lia). subst x.
    destruct (mx <? m)%uint63 eqn:C; [apply iltb in C; lia | exact H].
  - assert (0 <= i * V L) by (apply Z.mul_nonneg_nonneg; lia). destruct (mx <? m)%uint63 eqn:C; [apply iltb in C; lia|]. cbv zeta in H.
    destruct (enum d P mx (h >> 1) m) eqn:E1; [|discriminate]. rewrite Nat2Z.inj_succ, Z.pow_succ_r in Hs, Hi, Hh by lia.
    assert (Pd : 0 < 2 ^ Z.of_nat d) by (apply Z.pow_pos_nonneg; lia). assert (0 < 2 ^ Z.of_nat d * V L) by (apply Z.mul_pos_pos; lia).
    replace (2 * 2 ^ Z.of_nat d * V L) with (2 ^ Z.of_nat d * V L * 2) in Hh by ring. rewrite Z.div_mul in Hh by lia.
    assert (Hh2 : V (h >> 1) = (2 ^ Z.of_nat d * V L) / 2) by (rewrite ihalf, Hh; reflexivity).
    destruct (Z.lt_ge_cases i (2 ^ Z.of_nat d)) as [Hi2|Hi2]; [apply (IH P L mx _ m i x E1 Hh2 ltac:(lia) HL Hm ltac:(lia) ltac:(lia) Ex Hx)|].
    pose proof (to_Z_bounded m) as Bm. assert (Em : V (m + h) = V m + 2 ^ Z.of_nat d * V L) by (rewrite add_spec, Hh; apply Z.mod_small; change wB with (2 ^ 63); lia).
    apply (IH P L mx _ _ (i - 2 ^ Z.of_nat d) x H Hh2 ltac:(lia) HL); rewrite ?Em; lia.
Qed.

(** ** A prime cofactor *)
Lemma strip1_div : forall k d G m, prime m -> prime d -> m <> d -> (m | G) -> (m | strip1 k d G).
Proof.
  induction k as [|k IH]; intros d G m Pm Pd N D; cbn [strip1]; [exact D|]. destruct (G mod d =? 0) eqn:E; [|exact D]. apply Z.eqb_eq in E. pose proof (prime_ge2 d Pd).
  apply IH; try assumption. apply Z.div_exact in E; [|lia]. rewrite E in D. apply prime_mult in D; [|exact Pm]. destruct D as [D|D]; [|exact D]. apply prime_divides_prime in D; [congruence | exact Pm | exact Pd].
Qed.
Lemma strip_spec : forall ds P G m, Forall (fun d => prime (V d)) ds -> strip ds P G = true -> prime (V m) -> (V m | G) -> chk P m = true.
Proof.
  induction ds as [|d ds IH]; intros P G m F H Pm D; cbn [strip] in H; (destruct (G =? 1) eqn:G1; [apply Z.eqb_eq in G1; subst G; pose proof (prime_ge2 _ Pm); apply Z.divide_1_r_nonneg in D; lia|]); [discriminate|].
  inversion_clear F as [|? ? Pd F']. cbv zeta in H. pose proof (prime_ge2 _ Pd). destruct (G mod V d =? 0) eqn:E; [|exact (IH P G m F' H Pm D)].
  destruct (chk P d) eqn:C; [|discriminate]. destruct (Z.eq_dec (V m) (V d)) as [Em|Nm]; [apply to_Z_inj in Em; subst d; exact C|].
  apply (IH P _ m F' H Pm). apply strip1_div; try assumption. apply Z.eqb_eq in E. apply Z.div_exact in E; [|lia]. rewrite E in D. apply prime_mult in D; [|exact Pm]. destruct D as [D|D]; [|exact D]. apply prime_divides_prime in D; [congruence | exact Pm | exact Pd].
Qed.
Lemma divisors_primes : Forall (fun d => prime (V d)) trials.
Proof.
  unfold trials.   apply Forall_app. split.
  - apply Forall_forall. intros d Hd. destruct (filter_range_primes 1024) as [_ K]. rewrite <- divisors_eq in K. apply (in_map to_Z) in Hd. apply K in Hd. tauto.
  - unfold hints. repeat (apply Forall_cons; [match goal with |- prime (V ?x) => apply (lpf_prime x); [vm_compute; split; [discriminate | reflexivity] | vm_compute; reflexivity] end|]). apply Forall_nil.
Qed.
Lemma gcd3_div : forall P m, 2 <= P -> 2 <= m -> fixed_by m (P - 1) -> (m | gcd3 P).
Proof.
  intros P m HP Hm [A [B C]]. unfold gcd3. cbv zeta. set (a := 2 ^ (P - 1) - 1) in *.
  assert (a0 : 0 < a). { unfold a. assert (2 ^ 1 <= 2 ^ (P - 1)) by (apply Z.pow_le_mono_r; lia). change (2 ^ 1) with 2 in *. lia. }
  assert (G : forall x y, 0 < y -> (m | y) -> x ^ (P - 1) =[m]= 1 -> (m | Z.gcd y (Zpow_mod x (P - 1) y - 1))).
  { intros x y Hy D H. apply Z.gcd_greatest; [exact D|]. rewrite Zpow_mod_correct by lia. rewrite Z.mod_eq by lia. destruct H as [c Hc]. destruct D as [e He]. exists (c - e * (x ^ (P - 1) / y)). rewrite He at 1. lia. }
  apply G; [|apply G; assumption|exact C]. destruct (Z.eq_dec (Z.gcd a (Zpow_mod 7 (P - 1) a - 1)) 0) as [Z0|]; [apply Z.gcd_eq_0_l in Z0; lia|]. pose proof (Z.gcd_nonneg a (Zpow_mod 7 (P - 1) a - 1)). lia.
Qed.
Lemma prime_fixed : forall P m a, P * m = n -> prime m -> 11 <= P -> prime a -> m <> a -> a ^ (n - 1) =[m]= 1 -> a ^ (P - 1) =[m]= 1.
Proof.
  intros P m a E Pm HP Pa Na Ha. pose proof (prime_ge2 m Pm). assert (F : a ^ (m - 1) =[m]= 1) by (apply NT.fermat; [exact Pm | intros C; apply prime_divides_prime in C; [congruence | exact Pm | exact Pa]]).
  replace (n - 1) with ((m - 1) * P + (P - 1)) in Ha by lia. rewrite Z.pow_add_r, Z.pow_mul_r in Ha by (try apply Z.mul_nonneg_nonneg; lia).
  eapply eqm_trans; [|exact Ha]. rewrite <- (Z.mul_1_l (a ^ (P - 1))) at 1. apply eqm_mul; [|apply eqm_refl]. apply eqm_sym. eapply eqm_trans; [apply eqm_pow; exact F|]. rewrite Z.pow_1_l by lia. apply eqm_refl.
Qed.
Lemma pchk_chk : forall P m, pchk P = true -> prime (V m) -> (V m | gcd3 (V P)) -> chk P m = true.
Proof. intros P m H Pm D. exact (strip_spec trials P (gcd3 (V P)) m divisors_primes H Pm D). Qed.
Lemma pchk_sound : forall P m, V P * V m = n -> prime (V m) -> 11 < V m -> 11 <= V P -> pchk P = true -> False.
Proof.
  intros P m E Pm Hm HP H. assert (D : (V m | n)) by (exists (V P); lia). pose proof (not_base _ Pm D) as [N2 [N7 N61]].
  assert (K : chk P m = true).
  { apply (pchk_chk P m H Pm). apply gcd3_div; [lia | lia |]. destruct (fixed_div _ D) as [A [B C]].
    split; [|split]; apply (prime_fixed (V P)); try assumption; [exact prime_2 | small_prime | small_prime]. }
  rewrite (chk_sound P m E ltac:(lia) HP) in K; [discriminate|]. intros r Pr D'. apply prime_divides_prime in D'; [lia | exact Pr | exact Pm].
Qed.

(** ** The search *)
Lemma top_div : forall P m, 1 <= V P -> V P * m = n -> m <= V (top / P).
Proof. intros P m HP E. rewrite div_spec. change (V top) with (2 ^ 32 - 1). apply Z.div_le_lower_bound; lia. Qed.
Lemma listed_sound : forall P L m, V P * V m = n -> 2 <= V m -> 11 <= V P -> (forall r, prime r -> (r | V m) -> 11 < r) -> 0 < V L < 2 ^ 40 -> (V L | n - 1) -> forall d m0, d = 18%nat -> listed P L (top / P) d m0 = true -> False.
Proof.
  intros P L m E Hm HP Hr HL DL d m0 Ed H. unfold listed in H. destruct (inverse P L (top / P) m0) eqn:I; [|discriminate]. unfold inverse in I. rewrite !andb_true_iff in I. destruct I as [[H1 H2] H3]. apply iltb in H1. apply iltb in H2. apply ieqb in H3. rewrite div_spec in H1. change (V 262144) with (2 ^ 18) in H1.
  pose proof (top_div P (V m) ltac:(lia) E) as Hmx. set (mx := (top / P)%uint63) in *. clearbody mx. pose proof (to_Z_bounded m0) as B0. pose proof (to_Z_bounded mx) as Bx.
  assert (K : (V L | V P * V m0 - 1)).
  { rewrite mulm_spec, !imod in H3 by (rewrite ?imod; try apply Z.mod_pos_bound; lia). change (V 1) with 1 in H3. rewrite Z.mul_mod_idemp_l in H3 by lia. apply eqm_mod_eq in H3; [exact H3 | lia]. }
  assert (Rel : rel_prime (V L) (V P)). { apply bezout_rel_prime. destruct K as [c Hc]. apply (Bezout_intro _ _ _ (- c) (V m0)). lia. }
  assert (D : (V L | V m - V m0)).
  { apply (Gauss _ (V P)); [|exact Rel]. replace (V P * (V m - V m0)) with ((n - 1) - (V P * V m0 - 1)) by (rewrite <- E; ring). apply Z.divide_sub_r; assumption. }
  destruct D as [i Hi]. assert (Hi0 : 0 <= i). { apply Z.nlt_ge. intros C. assert (i * V L <= -1 * V L) by (apply Z.mul_le_mono_nonneg_r; lia). lia. }
  assert (Hi1 : i < 2 ^ 18). { apply Z.nle_gt. intros C. assert (i <= V mx / V L) by (apply Z.div_le_lower_bound; lia). lia. }
  assert (Es : V (L << 17) = 2 ^ 18 * V L / 2) by (rewrite lsl_spec; change (V 17) with 17; rewrite Z.mod_small by (change wB with (2 ^ 63); lia); replace (2 ^ 18 * V L) with (V L * 2 ^ 17 * 2) by ring; rewrite Z.div_mul by lia; reflexivity).
  assert (C : chk P m = true) by (apply (enum_spec d P L mx (L << 17) m0 i m H); subst d; change (2 ^ Z.of_nat 18) with (2 ^ 18); lia).
  rewrite (chk_sound P m E Hm HP Hr) in C. discriminate.
Qed.
Definition rest (m : Z) (suf : list (int * int)) : Prop := forall r, prime r -> (r | m) -> 11 < r /\ (r < 2 ^ 16 -> exists L, In (of_Z r, L) suf).
Definition entries (suf : list (int * int)) : Prop := StronglySorted (fun a b => V (fst a) < V (fst b)) suf /\ forall p L, In (p, L) suf -> good p L.
Lemma branch_find : forall f P L mx suf r Lr, branch f P L mx suf = true -> entries suf -> In (r, Lr) suf -> V r * V r <= V mx ->
  exists s', f (P * r)%uint63 (L * (Lr / gcd L Lr))%uint63 s' = true /\ entries s' /\ (forall q Lq, In (q, Lq) suf -> V r < V q -> In (q, Lq) s').
Proof.
  intros f P L mx suf r Lr. induction suf as [|[p Lp] suf IH]; intros H [Hs Hg] Hin Hle; [destruct Hin|]. cbn [branch] in H. inversion_clear Hs as [|? ? Hs' Hf]. rewrite Forall_forall in Hf.
  assert (He : entries suf) by (split; [exact Hs' | intros q Lq Hq; apply Hg; right; exact Hq]). destruct (Hg p Lp (or_introl eq_refl)) as [_ [Bp _]].
  assert (Ble : V p <= V r) by (destruct Hin as [[= <- <-]|Hin]; [lia | specialize (Hf _ Hin); cbn [fst] in Hf; lia]).
  destruct (mx <? p * p)%uint63 eqn:C; [exfalso; apply iltb in C; rewrite imul in C by lia; assert (V p * V p <= V r * V r) by (apply Z.mul_le_mono_nonneg; lia); lia|].
  destruct (f (P * p)%uint63 _ suf) eqn:F; [|discriminate]. destruct Hin as [[= <- <-]|Hin].
  - exists suf. split; [exact F|]. split; [exact He|]. intros q Lq [[= <- <-]|Hq] Hlt; [lia | exact Hq].
  - destruct (IH H He Hin Hle) as [s' [A [B D]]]. exists s'. split; [exact A|]. split; [exact B|]. intros q Lq [[= <- <-]|Hq] Hlt; [lia | exact (D q Lq Hq Hlt)].
Qed.
Lemma lcm_abs : forall L Lr g N, 0 < L -> 0 < Lr -> 0 <= g -> Zis_gcd L Lr g -> (L | N) -> (Lr | N) -> 0 < Lr / g <= Lr /\ (L * (Lr / g) | N).
Proof.
  intros L Lr g N HL HLr Hg [[a Ha] [b Hb] G] D1 D2. assert (g0 : 0 < g) by (destruct (Z.eq_dec g 0) as [Z0|]; [rewrite Z0, Z.mul_0_r in Ha; lia | lia]).
  assert (Ed : Lr / g = b) by (rewrite Hb; apply Z.div_mul; lia). assert (b0 : 0 < b) by (apply Z.mul_pos_cancel_r with g; lia). assert (b1 : b <= Lr) by (assert (b * 1 <= b * g) by (apply Z.mul_le_mono_nonneg_l; lia); lia).
  rewrite Ed. split; [lia|]. destruct D1 as [c Hc]. assert (R : rel_prime b a).
  { apply rel_prime_sym. split; [apply Z.divide_1_l | apply Z.divide_1_l |]. intros x [u Hu] [v Hv]. assert (Dx : (x * g | g)) by (apply G; [exists u; rewrite Ha, Hu; ring | exists v; rewrite Hb, Hv; ring]).
    destruct Dx as [w Hw]. exists w. apply (Z.mul_reg_r _ _ g); lia. }
  assert (Db : (b | c)).
  { apply (Gauss _ a); [|exact R]. destruct D2 as [e He]. exists e. apply (Z.mul_reg_r _ _ g); [lia|]. rewrite Hc, Ha, Hb in He. lia. }
  destruct Db as [d ->]. exists d. rewrite Hc. ring.
Qed.
Lemma lcm_step : forall L Lr, 0 < V L < 2 ^ 40 -> 0 < V Lr < 2 ^ 16 -> (V L | n - 1) -> (V Lr | n - 1) -> 0 < V (L * (Lr / gcd L Lr)) /\ (V (L * (Lr / gcd L Lr)) | n - 1).
Proof.
  intros L Lr HL HLr D1 D2. pose proof (gcd_spec L Lr) as G. generalize dependent (gcd L Lr). intros g G. pose proof (to_Z_bounded g) as Bg.
  destruct (lcm_abs (V L) (V Lr) (V g) (n - 1) ltac:(lia) ltac:(lia) ltac:(lia) G D1 D2) as [B D].
  assert (Em : V (L * (Lr / g)) = V L * (V Lr / V g)).
  { rewrite mul_spec, div_spec. apply Z.mod_small. split; [apply Z.mul_nonneg_nonneg; lia|]. change wB with (2 ^ 63). apply Z.le_lt_trans with (V L * 2 ^ 16); [apply Z.mul_le_mono_nonneg_l; lia | lia]. }
  rewrite Em. split; [apply Z.mul_pos_pos; lia | exact D].
Qed.
Lemma node_S : forall dep P L suf, node (S dep) P L suf =
    if match suf with [] => false | (r, _) :: _ => (top / P <? r)%uint63 end then true
    else if negb (L <? 1099511627776)%uint63 then false
    else if (1 <? gcd P L)%uint63 then true
    else if (top / P / L <=? P * P / 4)%uint63 || (top / P / L <=? 200)%uint63 then listed P L (top / P) 18 (inv P L)
    else if pchk P then branch (node dep) P L (top / P) suf
    else false.
Proof. intros. cbn [node]. reflexivity. Qed.
Lemma gcd_common : forall P L, (1 <? gcd P L)%uint63 = true -> exists g, 1 < g /\ (g | V P) /\ (g | V L).
Proof. intros P L H. apply iltb in H. pose proof (gcd_spec P L) as G. generalize dependent (gcd P L). intros g Hg [G1 G2 _]. exists (V g). auto. Qed.
Lemma below40 : forall L, (L <? 1099511627776)%uint63 = true -> V L < 2 ^ 40.
Proof. intros L C. apply iltb in C. exact C. Qed.
Lemma pick : forall (a b c d l p br : bool), (if a then true else if negb b then false else if c then true else if d then l else if p then br else false) = true ->
  a = true \/ c = true \/ (b = true /\ l = true) \/ (b = true /\ p = true /\ br = true).
Proof. intros [|] [|] [|] [|] [|] [|] [|] H; try discriminate H; auto 6. Qed.
Lemma node_cases : forall dep P L suf, node (S dep) P L suf = true ->
  match suf with [] => false | (r, _) :: _ => (top / P <? r)%uint63 end = true \/ (1 <? gcd P L)%uint63 = true \/
  ((L <? 1099511627776)%uint63 = true /\ listed P L (top / P) 18 (inv P L) = true) \/ ((L <? 1099511627776)%uint63 = true /\ pchk P = true /\ branch (node dep) P L (top / P) suf = true).
Proof. intros dep P L suf H. rewrite node_S in H. apply pick in H. exact H. Qed.
Lemma node_sound : forall dep P L suf m, node dep P L suf = true -> V P * m = n -> 2 <= m -> 11 <= V P -> 0 < V L -> (V L | n - 1) -> entries suf -> rest m suf -> False.
Proof.
  induction dep as [|dep IH]; intros P L suf m H E Hm HP HL DL He Hr; [discriminate|]. apply node_cases in H.
  pose proof (top_div P m ltac:(lia) E) as Hmx.   assert (M32 : m < 2 ^ 29). { assert (11 * m <= V P * m) by (apply Z.mul_le_mono_nonneg_r; lia). lia. }
  assert (Em : V (of_Z m) = m) by (apply iof; lia).
  destruct H as [C0|[C2|[[C1 H]|[C1 [C3 H]]]]].
  { destruct suf as [|[r Lr] s]; [discriminate|]. apply iltb in C0. destruct (smallest_prime_divisor m Hm) as [q [Pq [Dq _]]]. destruct (Hr q Pq Dq) as [Q1 Q2]. assert (q <= m) by (apply Z.divide_pos_le; [lia | exact Dq]).
    destruct He as [Hs Hg]. destruct (Hg r Lr (or_introl eq_refl)) as [_ [Br _]]. destruct Q2 as [Lq Hq]; [lia|]. inversion_clear Hs as [|? ? _ Hf]. rewrite Forall_forall in Hf. destruct Hq as [Hq|Hq].
    - injection Hq as Hq _. assert (V r = q) by (rewrite Hq; apply iof; lia). lia.
    - specialize (Hf _ Hq). cbn [fst] in Hf. rewrite iof in Hf by lia. lia. }
  { apply gcd_common in C2. destruct C2 as [g [G0 [G1 G2]]]. assert (X : (g | 1)).
    { replace 1 with (n - (n - 1)) by ring. apply Z.divide_sub_r; [rewrite <- E; apply Z.divide_mul_l; exact G1 | eapply Z.divide_trans; [exact G2 | exact DL]]. }
    apply Z.divide_1_r_nonneg in X; lia. }
  { apply below40 in C1. apply (listed_sound P L (of_Z m)) with (d := 18%nat) (m0 := inv P L); rewrite ?Em; try assumption; try reflexivity; [|lia]. intros r Pr Dr. apply (Hr r Pr Dr). }
  apply below40 in C1. destruct (prime_dec m) as [Pm|Nm].
  { apply (pchk_sound P (of_Z m)); rewrite ?Em; try assumption. apply (Hr m Pm (Z.divide_refl m)). }
  destruct (smallest_prime_divisor m Hm) as [r [Pr [Dr Mr]]]. destruct (composite_small_prime m Hm Nm) as [q [Pq [Dq Sq]]]. pose proof (Mr q Pq Dq) as Rq. destruct (Hr r Pr Dr) as [R11 R16]. assert (Sr : r * r <= m) by (assert (r * r <= q * q) by (apply Z.mul_le_mono_nonneg; lia); lia).
  assert (R16' : r < 2 ^ 16) by (apply Z.nle_gt; intros C; assert (2 ^ 16 * 2 ^ 16 <= r * r) by (apply Z.mul_le_mono_nonneg; lia); lia). destruct (R16 R16') as [Lr Hin]. assert (Er : V (of_Z r) = r) by (apply iof; lia).
  destruct (branch_find _ P L (top / P)%uint63 suf (of_Z r) Lr H He Hin ltac:(rewrite Er; lia)) as [s' [Hn' [He' Hs']]]. destruct Dr as [m' Em'].
  destruct (proj2 He _ _ Hin) as [Gp [Gr [Go Gs]]]. rewrite Er in Go.
  assert (Dn : (r | n)) by (exists (V P * m'); rewrite <- E, Em'; ring). pose proof (order_divides r (V Lr) Dn Go) as DLr. destruct Go as [BLr _]. destruct (lcm_step L Lr ltac:(lia) BLr DL DLr) as [L0 DL'].
  assert (M2 : 2 <= m'). { assert (r <= m') by (apply (Z.mul_le_mono_pos_r _ _ r); lia). lia. }
  assert (EP : V (P * of_Z r) = V P * r).
  { rewrite mul_spec, Er. apply Z.mod_small. split; [apply Z.mul_nonneg_nonneg; lia|]. change wB with (2 ^ 63). assert (V P * r * 1 <= V P * r * m') by (apply Z.mul_le_mono_nonneg_l; [apply Z.mul_nonneg_nonneg; lia | lia]). assert (V P * r * m' = n) by (rewrite <- E, Em'; ring). lia. }
  apply (IH _ _ s' m' Hn'); try assumption.
  - rewrite EP, <- E, Em'. ring.
  - rewrite EP. assert (V P * 1 <= V P * r) by (apply Z.mul_le_mono_nonneg_l; lia). lia.
  - intros x Px Dx. assert (Dxm : (x | m)) by (rewrite Em'; apply Z.divide_mul_l; exact Dx). destruct (Hr x Px Dxm) as [X1 X2]. split; [exact X1|]. intros X16. destruct (X2 X16) as [Lx Hx]. exists Lx. apply Hs'; [exact Hx|].
    rewrite Er, iof by lia. pose proof (Mr x Px Dxm) as Rx. destruct (Z.eq_dec r x) as [<-|]; [|lia]. exfalso. apply (squarefree (of_Z r) Lr); [apply He; exact Hin|]. rewrite Er. destruct Dx as [y Hy]. exists (V P * y). rewrite <- E, Em', Hy. ring.
Qed.
Lemma tops_find : forall s p L, tops s = true -> entries s -> In (p, L) s -> exists s', node 8 p L s' = true /\ entries s' /\ (forall q Lq, In (q, Lq) s -> V p < V q -> In (q, Lq) s').
Proof.
  induction s as [|[r Lr] s IH]; intros p L H [Hs Hg] Hin; [destruct Hin|]. cbn [tops] in H. destruct (node 8 r Lr s) eqn:N; [|discriminate]. inversion_clear Hs as [|? ? Hs' Hf]. rewrite Forall_forall in Hf.
  assert (He : entries s) by (split; [exact Hs' | intros q Lq Hq; apply Hg; right; exact Hq]). destruct Hin as [[= <- <-]|Hin].
  - exists s. split; [exact N|]. split; [exact He|]. intros q Lq [[= <- <-]|Hq] Hlt; [lia | exact Hq].
  - destruct (IH p L H He Hin) as [s' [A [B D]]]. exists s'. split; [exact A|]. split; [exact B|]. intros q Lq [[= <- <-]|Hq] Hlt; [|exact (D q Lq Hq Hlt)]. specialize (Hf _ Hin). cbn [fst] in Hf. lia.
Qed.
Lemma tab_entries : entries tab.
Proof. split; [apply increasing_sorted, tab_increasing | exact entry_good]. Qed.
Theorem strong_2_7_61 : ~ (3 | n) -> ~ (5 | n) -> prime n.
Proof.
  intros N3 N5. destruct (prime_dec n) as [|Nn]; [assumption|]. exfalso.
  destruct (smallest_prime_divisor n ltac:(lia)) as [p [Pp [Dp Mp]]]. destruct (composite_small_prime n ltac:(lia) Nn) as [q [Pq [Dq Sq]]]. pose proof (Mp q Pq Dq) as Rq. pose proof (prime_ge2 p Pp) as P2.
  assert (Sp : p * p <= n) by (assert (p * p <= q * q) by (apply Z.mul_le_mono_nonneg; lia); lia).
  assert (P16 : p < 2 ^ 16) by (apply Z.nle_gt; intros C; assert (2 ^ 16 * 2 ^ 16 <= p * p) by (apply Z.mul_le_mono_nonneg; lia); lia).
  assert (P11 : forall r, prime r -> (r | n) -> 11 <= r /\ r <> 61).
  { intros r Pr Dr. destruct (not_base r Pr Dr) as [A2 [A7 A61]]. split; [|exact A61]. pose proof (prime_ge2 r Pr). apply Z.nlt_ge. intros C. assert (W : r = 3 \/ r = 4 \/ r = 5 \/ r = 6 \/ r = 8 \/ r = 9 \/ r = 10) by lia.
    destruct W as [-> |[-> |[-> |[-> |[-> |[-> | ->]]]]]]; try contradiction; apply primeb_spec in Pr; vm_compute in Pr; discriminate. }
  destruct (P11 p Pp Dp) as [B11 B61]. destruct (tab_primes p Pp ltac:(lia) B61) as [L Hin]. assert (Ep : V (of_Z p) = p) by (apply iof; lia).
  destruct (tops_find tab (of_Z p) L search tab_entries Hin) as [s' [N [He Hs]]]. destruct (entry_good _ _ Hin) as [_ [_ [Go _]]]. rewrite Ep in Go. pose proof (order_divides p (V L) Dp Go) as DL. destruct Go as [BL _]. destruct Dp as [m Em].
  assert (M2 : 2 <= m). { assert (p <= m) by (apply (Z.mul_le_mono_pos_r _ _ p); lia). lia. }
  apply (node_sound 8 (of_Z p) L s' m N); try assumption; try lia.
  - intros x Px Dx. assert (Dxn : (x | n)) by (rewrite Em; apply Z.divide_mul_l; exact Dx). destruct (P11 x Px Dxn) as [X1 X2]. pose proof (Mp x Px Dxn) as X3.
    assert (X4 : p < x). { destruct (Z.eq_dec p x) as [<-|]; [|lia]. exfalso. apply (squarefree (of_Z p) L); [apply entry_good; exact Hin|]. rewrite Ep. destruct Dx as [y Hy]. exists y. rewrite Em, Hy. ring. }
    split; [lia|]. intros X16. destruct (tab_primes x Px ltac:(lia) X2) as [Lx Hx]. exists Lx. apply Hs; [exact Hx|]. rewrite Ep, iof by lia. exact X4.
Qed.
End One.
