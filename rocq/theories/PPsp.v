(** * The strong test to the bases 2, 7 and 61 is exact below 2^32 (Jaeschke 1993), by an exhaustive search.
    The least prime p of a composite n that passes is below 2^16; the orders of the bases modulo p divide n - 1, which
    leaves few cofactors to try; for the smallest p the search branches over the second prime, third prime, ...
    The computation is on Coq's 63-bit machine integers. No further code is modelled here. *)
From Coq Require Import ZArith Znumtheory List Lia Bool Sorted Zpow_facts Uint63.
From Verif Require Import Base Spec Ext NT PBase Tables PTables NTPock NTRabin PExact.
Import ListNotations.
Local Open Scope Z_scope.
Local Notation V := Uint63.to_Z.

(** ** Products and powers modulo n *)
Definition mulm (a b n : int) : int := let (h, l) := mulc a b in snd (diveucl_21 h l n).
Lemma mulm_spec : forall a b n, V a < V n -> V b < V n -> V (mulm a b n) = (V a * V b) mod V n.
Proof.
  intros a b n Ha Hb. unfold mulm. pose proof (mulc_spec a b) as M. destruct (mulc a b) as [h l]. cbn [fst snd] in M.
  pose proof (to_Z_bounded a). pose proof (to_Z_bounded b). pose proof (to_Z_bounded n). pose proof (to_Z_bounded l). pose proof (to_Z_bounded h).
  assert (Hh : V h < V n).
  { apply Z.nle_gt. intros C. assert (V a * V b < V n * wB) by (apply Z.le_lt_trans with (V n * V b); [apply Z.mul_le_mono_nonneg_r; lia | apply Z.mul_lt_mono_pos_l; lia]).
    assert (V n * wB <= V h * wB) by (apply Z.mul_le_mono_nonneg_r; lia). lia. }
  pose proof (diveucl_21_spec h l n) as D. destruct (diveucl_21 h l n) as [q r]. cbn [snd]. rewrite <- M in D. unfold Z.modulo. destruct (Z.div_eucl (V a * V b) (V n)) as [q' r']. exact (proj2 (D Hh)).
Qed.
Fixpoint powm (j : nat) (b e m : int) : int :=
  match j with
  | O => 1%uint63
  | S j' => if (e =? 0)%uint63 then 1%uint63 else
            let x := powm j' b (e >> 1)%uint63 m in let y := mulm x x m in if (e land 1 =? 0)%uint63 then y else mulm y b m
  end.
Lemma half_step : forall b e, 0 <= e -> b ^ e = b ^ (e / 2) * b ^ (e / 2) * b ^ (e mod 2).
Proof.
  intros b e He. pose proof (Z.div_mod e 2 ltac:(lia)). pose proof (Z.mod_pos_bound e 2 ltac:(lia)). pose proof (Z.div_pos e 2 He ltac:(lia)).
  rewrite <- !Z.pow_add_r by lia. f_equal. lia.
Qed.
Lemma powm_spec : forall j b e m, 2 <= V m -> V b < V m -> V e < 2 ^ Z.of_nat j -> V (powm j b e m) = (V b ^ V e) mod V m.
Proof.
  induction j as [|j IH]; intros b e m Hm Hb He; pose proof (to_Z_bounded e) as Be; cbn [powm].
  - change (2 ^ Z.of_nat 0) with 1 in He. replace (V e) with 0 by lia. rewrite Z.pow_0_r. change (V 1) with 1. symmetry. apply Z.mod_small. lia.
  - destruct (e =? 0)%uint63 eqn:E0; [apply ieqb in E0; change (V 0) with 0 in E0; rewrite E0, Z.pow_0_r; change (V 1) with 1; symmetry; apply Z.mod_small; lia|].
    assert (He2 : V (e >> 1) < 2 ^ Z.of_nat j).
    { rewrite ihalf. apply Z.div_lt_upper_bound; [lia|]. rewrite Nat2Z.inj_succ, Z.pow_succ_r in He by lia. exact He. }
    specialize (IH b (e >> 1)%uint63 m Hm Hb He2). rewrite ihalf in IH. set (x := powm j b (e >> 1)%uint63 m) in *. pose proof (Z.mod_pos_bound (V b ^ (V e / 2)) (V m) ltac:(lia)) as M1.
    assert (Hy : V (mulm x x m) = (V b ^ (V e / 2) * V b ^ (V e / 2)) mod V m) by (rewrite mulm_spec, IH by lia; rewrite <- Z.mul_mod by lia; reflexivity).
    pose proof (Z.mod_pos_bound (V b ^ (V e / 2) * V b ^ (V e / 2)) (V m) ltac:(lia)) as M2. pose proof (Z.mod_pos_bound (V e) 2 ltac:(lia)) as M3.
    rewrite (half_step (V b) (V e)) by lia. cbv zeta. destruct (e land 1 =? 0)%uint63 eqn:E1.
    + apply ieqb in E1. rewrite iland1 in E1. change (V 0) with 0 in E1. rewrite E1, Z.pow_0_r, Z.mul_1_r. exact Hy.
    + apply ieqbf in E1. rewrite iland1 in E1. change (V 0) with 0 in E1. replace (V e mod 2) with 1 by lia. rewrite Z.pow_1_r, mulm_spec, Hy by lia. rewrite Z.mul_mod_idemp_l by lia. reflexivity.
Qed.
(** powers of 2 modulo a number below 2^31, five bits of the exponent at a time *)
Fixpoint pow2 (j : nat) (e m : int) : int :=
  match j with
  | O => ((1 << e) mod m)%uint63
  | S j' => let x := pow2 j' (e >> 5)%uint63 m in
            let x := (x * x mod m)%uint63 in let x := (x * x mod m)%uint63 in let x := (x * x mod m)%uint63 in let x := (x * x mod m)%uint63 in let x := (x * x mod m)%uint63 in
            ((x << (e land 31)) mod m)%uint63
  end.
Lemma sq_step : forall x m a, 2 <= V m < 2 ^ 31 -> V x = a mod V m -> V (x * x mod m) = (a * a) mod V m.
Proof. intros x m a Hm E. pose proof (Z.mod_pos_bound a (V m) ltac:(lia)). rewrite imod, imul, E by lia. rewrite <- Z.mul_mod by lia. reflexivity. Qed.
Lemma pow2_spec : forall j e m, 2 <= V m < 2 ^ 31 -> V e < 2 ^ (5 * Z.of_nat j + 5) -> V (pow2 j e m) = (2 ^ V e) mod V m.
Proof.
  induction j as [|j IH]; intros e m Hm He; pose proof (to_Z_bounded e) as Be; cbn [pow2].
  - change (2 ^ (5 * Z.of_nat 0 + 5)) with 32 in He. rewrite imod, lsl_spec. change (V 1) with 1. rewrite Z.mul_1_l. f_equal. apply Z.mod_small. split; [apply Z.pow_nonneg; lia|].
    change wB with (2 ^ 63). apply Z.pow_lt_mono_r; lia.
  - assert (E5 : V (e >> 5) = V e / 32) by (rewrite lsr_spec; reflexivity).
    assert (He2 : V (e >> 5) < 2 ^ (5 * Z.of_nat j + 5)).
    { rewrite E5. apply Z.div_lt_upper_bound; [lia|]. change 32 with (2 ^ 5). rewrite <- Z.pow_add_r by lia. replace (5 + (5 * Z.of_nat j + 5)) with (5 * Z.of_nat (S j) + 5) by lia. exact He. }
    specialize (IH (e >> 5)%uint63 m Hm He2). rewrite E5 in IH. cbv zeta. set (x := pow2 j (e >> 5)%uint63 m) in *. clearbody x.
    apply sq_step in IH; [|exact Hm]. apply sq_step in IH; [|exact Hm]. apply sq_step in IH; [|exact Hm]. apply sq_step in IH; [|exact Hm]. apply sq_step in IH; [|exact Hm].
    match type of IH with V ?y = _ => set (y5 := y) in * end. clearbody y5.
    assert (El : V (e land 31) = V e mod 32) by (rewrite land_spec'; change (V 31) with (Z.ones 5); rewrite Z.land_ones by lia; reflexivity).
    pose proof (Z.mod_pos_bound (V e) 32 ltac:(lia)) as B. rewrite imod, lsl_spec, El.
    match type of IH with _ = ?a mod _ => pose proof (Z.mod_pos_bound a (V m) ltac:(lia)) as B5; assert (Ea : a = 2 ^ (V e / 32 * 32)) by (rewrite Z.pow_mul_r by (try apply Z.div_pos; lia); ring); rewrite Ea in IH, B5 end.
    rewrite (Z.mod_small (_ * _) wB).
    + rewrite IH, Z.mul_mod_idemp_l by lia. rewrite <- Z.pow_add_r by (try apply Z.mul_nonneg_nonneg; try apply Z.div_pos; lia). do 2 f_equal. pose proof (Z.div_mod (V e) 32 ltac:(lia)). lia.
    + rewrite IH. split; [apply Z.mul_nonneg_nonneg; [lia | apply Z.pow_nonneg; lia]|]. assert (2 ^ (V e mod 32) <= 2 ^ 31) by (apply Z.pow_le_mono_r; lia). assert (0 < 2 ^ (V e mod 32)) by (apply Z.pow_pos_nonneg; lia).
      change wB with (2 ^ 32 * 2 ^ 31). apply Z.le_lt_trans with (2 ^ 31 * 2 ^ 31); [apply Z.mul_le_mono_nonneg; lia | reflexivity].
Qed.

(** ** The strong test: the powers a^(d 2^r) for r below s, from e = (n - 1) / 2 down *)
Fixpoint st (k : nat) (a n e : int) : bool * int :=
  match k with
  | O => (true, 0%uint63)
  | S k' => if (e land 1 =? 0)%uint63 then let (b, x) := st k' a n (e >> 1)%uint63 in let y := mulm x x n in (b || (y =? n - 1)%uint63, y)
            else let x := powm 32 a e n in ((x =? 1)%uint63 || (x =? n - 1)%uint63, x)
  end.
Definition strongi (a n : int) : bool := fst (st 32 a n (n >> 1)%uint63).
Lemma st_spec : forall k a n e, 3 <= V n < 2 ^ 32 -> V a < V n -> 0 < V e < 2 ^ Z.of_nat k -> V e < 2 ^ 32 ->
  V (snd (st k a n e)) = V a ^ V e mod V n /\
  forall d r, Z.odd d = true -> 0 <= r -> 0 < d -> (exists j, 0 <= j /\ V e = d * 2 ^ (r + j)) -> V a ^ (d * 2 ^ r) mod V n = V n - 1 \/ (V a ^ d mod V n = 1) -> fst (st k a n e) = true.
Proof.
  induction k as [|k IH]; intros a n e Hn Ha He He32; [change (2 ^ Z.of_nat 0) with 1 in He; lia|]. cbn [st].
  pose proof (Z.div_mod (V e) 2 ltac:(lia)) as DM. pose proof (Z.mod_pos_bound (V e) 2 ltac:(lia)) as MB.
  assert (En : V (n - 1) = V n - 1) by (rewrite sub_spec; change (V 1) with 1; apply Z.mod_small; change wB with (2 ^ 63); lia).
  destruct (e land 1 =? 0)%uint63 eqn:E1.
  - apply ieqb in E1. rewrite iland1 in E1. change (V 0) with 0 in E1.
    specialize (IH a n (e >> 1)%uint63 Hn Ha). rewrite ihalf in IH. rewrite Nat2Z.inj_succ, Z.pow_succ_r in He by lia. specialize (IH ltac:(lia) ltac:(lia)). destruct (st k a n (e >> 1)%uint63) as [b x]. cbn [fst snd] in *. destruct IH as [IH1 IH2].
    pose proof (Z.mod_pos_bound (V a ^ (V e / 2)) (V n) ltac:(lia)) as M1.
    assert (Hy : V (mulm x x n) = V a ^ V e mod V n).
    { rewrite mulm_spec, IH1 by lia. rewrite <- Z.mul_mod by lia. rewrite (half_step (V a) (V e)), E1, Z.pow_0_r, Z.mul_1_r by lia. reflexivity. }
    split; [exact Hy|]. intros d r Od Hr Hd [j [Hj E]] H. apply orb_true_iff.
    destruct (Z.eq_dec j 0) as [-> |Nj].
    + rewrite Z.add_0_r in E. destruct H as [H|H]; [right; apply ieqb; rewrite Hy, En, E; exact H|].
      left. apply (IH2 d 0 Od ltac:(lia) Hd); [|right; exact H]. destruct (Z.eq_dec r 0) as [-> |Nr]; [exfalso; rewrite Z.pow_0_r, Z.mul_1_r in E; subst d; rewrite Zmod_odd, Od in E1; discriminate|].
      exists (r - 1). split; [lia|]. rewrite E. replace (2 ^ r) with (2 * 2 ^ (r - 1)) by (rewrite <- Z.pow_succ_r by lia; f_equal; lia). replace (d * (2 * 2 ^ (r - 1))) with (d * 2 ^ (0 + (r - 1)) * 2) by (rewrite Z.add_0_l; ring). apply Z.div_mul. lia.
    + left. apply (IH2 d r Od Hr Hd); [|exact H]. exists (j - 1). split; [lia|]. rewrite E. replace (2 ^ (r + j)) with (2 * 2 ^ (r + (j - 1))) by (rewrite <- Z.pow_succ_r by lia; f_equal; lia).
      replace (d * (2 * 2 ^ (r + (j - 1)))) with (d * 2 ^ (r + (j - 1)) * 2) by ring. apply Z.div_mul. lia.
  - apply ieqbf in E1. rewrite iland1 in E1. change (V 0) with 0 in E1. cbn [fst snd].
    assert (Hx : V (powm 32 a e n) = V a ^ V e mod V n) by (apply powm_spec; [lia | lia | exact He32]). split; [exact Hx|].
    intros d r Od Hr Hd [j [Hj E]] H. assert (r + j = 0).
    { destruct (Z.eq_dec (r + j) 0) as [|N]; [assumption|]. exfalso. apply E1. rewrite E. replace (2 ^ (r + j)) with (2 * 2 ^ (r + j - 1)) by (rewrite <- Z.pow_succ_r by lia; f_equal; lia). replace (d * (2 * 2 ^ (r + j - 1))) with (d * 2 ^ (r + j - 1) * 2) by ring. apply Z.mod_mul. lia. }
    assert (r = 0) by lia. assert (j = 0) by lia. subst r j. rewrite Z.add_0_l, Z.pow_0_r, Z.mul_1_r in E. rewrite Z.pow_0_r, Z.mul_1_r in H. rewrite E in Hx.
    apply orb_true_iff. destruct H as [H|H]; [right; apply ieqb; rewrite Hx, En; exact H | left; apply ieqb; rewrite Hx; exact H].
Qed.
Lemma strongi_spec : forall a n, 3 <= V n < 2 ^ 32 -> Z.odd (V n) = true -> V a < V n -> strong_prp (V n) (V a) -> strongi a n = true.
Proof.
  intros a n Hn Ho Ha [d [s [Hs [Od [E H]]]]]. unfold strongi.
  assert (E2 : V (n >> 1) = V n / 2) by apply ihalf. pose proof (Z.div_mod (V n) 2 ltac:(lia)) as DM. rewrite (Zmod_odd (V n)), Ho in DM.
  assert (S1 : 1 <= s). { destruct (Z.eq_dec s 0) as [-> |]; [|lia]. rewrite Z.pow_0_r, Z.mul_1_r in E. exfalso. rewrite <- E in Od. rewrite Z.odd_sub, Ho in Od. discriminate. }
  assert (Dp : 0 < d). { assert (0 < 2 ^ s) by (apply Z.pow_pos_nonneg; lia). destruct (Z.le_gt_cases d 0); [|lia]. assert (d * 2 ^ s <= 0) by (apply Z.mul_nonpos_nonneg; lia). lia. }
  assert (Eh : V n / 2 = d * 2 ^ (s - 1)). { replace (2 ^ s) with (2 * 2 ^ (s - 1)) in E by (rewrite <- Z.pow_succ_r by lia; f_equal; lia). lia. }
  destruct (st_spec 32 a n (n >> 1)%uint63 Hn Ha) as [_ K]; [rewrite E2; change (2 ^ Z.of_nat 32) with (2 ^ 32); lia | rewrite E2; lia |].
  rewrite (Z.mod_small 1) in H by lia. replace ((-1) mod V n) with (V n - 1) in H by (symmetry; rewrite <- (Z.mod_small (V n - 1) (V n)) by lia; replace (V n - 1) with (-1 + 1 * V n) by ring; rewrite Z.mod_add by lia; reflexivity).
  destruct H as [H|[r [Hr H]]].
  - apply (K d 0 Od ltac:(lia) Dp); [exists (s - 1); split; [lia|]; rewrite E2, Z.add_0_l; exact Eh | right; exact H].
  - apply (K d r Od ltac:(lia) Dp); [exists (s - 1 - r); split; [lia|]; rewrite E2; replace (r + (s - 1 - r)) with (s - 1) by lia; exact Eh | left; exact H].
Qed.

(** ** The order of the three bases modulo a prime *)
Definition fixed_by (p k : Z) : Prop := 2 ^ k =[p]= 1 /\ 7 ^ k =[p]= 1 /\ 61 ^ k =[p]= 1.
Definition alls (e p : int) : bool := ((powi 16 2 e p 1 =? 1) && (powi 16 7 e p 1 =? 1) && (powi 16 (61 mod p) e p 1 =? 1))%uint63.
Lemma alls_spec : forall e p, 11 <= V p < 2 ^ 31 -> V e < 2 ^ 16 -> (alls e p = true <-> fixed_by (V p) (V e)).
Proof.
  intros e p Hp He. unfold alls, fixed_by, eqm. rewrite !andb_true_iff, !ieqb. change (V 1) with 1.
  assert (M : V (61 mod p) = 61 mod V p) by (rewrite imod; reflexivity). pose proof (Z.mod_pos_bound 61 (V p) ltac:(lia)) as B.
  rewrite !powi_spec by (try rewrite M; try change (V 2) with 2; try change (V 7) with 7; try change (V 1) with 1; lia || exact He).
  rewrite M. change (V 2) with 2. change (V 7) with 7. change (V 1) with 1. rewrite !Z.mul_1_l, <- !pow_mod_l by lia.
  assert (K : forall x, x mod V p = 1 <-> (V p | x - 1)).
  { intros x. split; intros H; [exists (x / V p); pose proof (Z.div_mod x (V p) ltac:(lia)); lia|]. destruct H as [c Hc]. replace x with (1 + c * V p) by lia. rewrite Z.mod_add by lia. apply Z.mod_small. lia. }
  rewrite !K. tauto.
Qed.
Lemma fixed_gcd : forall p a b, prime p -> 0 < a -> 0 < b -> fixed_by p a -> fixed_by p b -> fixed_by p (Z.gcd a b).
Proof. intros p a b Pp Ha Hb [A1 [A2 A3]] [B1 [B2 B3]]. repeat split; apply pow_gcd_one; assumption. Qed.
Lemma fixed_mul : forall p a b, 0 <= a -> (a | b) -> 0 <= b -> fixed_by p a -> fixed_by p b.
Proof.
  assert (G : forall x p a b, 0 <= a -> (a | b) -> 0 <= b -> x ^ a =[p]= 1 -> x ^ b =[p]= 1).
  { intros x p a b Ha [c ->] Hb H. destruct (Z.eq_dec a 0) as [-> |N]; [rewrite Z.mul_0_r; apply eqm_refl|]. assert (0 <= c) by (apply Z.mul_le_mono_pos_r with a; lia).
    rewrite Z.mul_comm, Z.pow_mul_r by lia. eapply eqm_trans; [apply eqm_pow; exact H|]. rewrite Z.pow_1_l by lia. apply eqm_refl. }
  intros p a b Ha D Hb [A1 [A2 A3]]. split; [|split]; apply (G _ p a b Ha D Hb); assumption.
Qed.
(** L divides every k that fixes the bases *)
Definition order_of (p L : Z) : Prop := 0 < L < 2 ^ 16 /\ forall k, 0 < k -> fixed_by p k -> (L | k).
Fixpoint fl (k : nat) (ds : list int) (x : int) : list int :=
  match k with
  | O => [x]
  | S k' => match ds with
            | [] => [x]
            | d :: ds' => if (x <? d * d)%uint63 then (if (x =? 1)%uint63 then [] else [x]) else if (x mod d =? 0)%uint63 then d :: fl k' ds (x / d)%uint63 else fl k' ds' x
            end
  end.
Definition order_cert (p L : int) : bool :=
  let fs := fl 300 divisors L in
  (0 <? L)%uint63 && (L <? 65536)%uint63 && alls L p && (fold_right Z.mul 1 (map to_Z fs) =? V L) &&
  forallb (fun q => (1 <? q)%uint63 && (q <? 65536)%uint63 && (lpf divisors q =? 0)%uint63 && negb (alls (L / q)%uint63 p)) fs.
Lemma prime_in_product : forall l q, prime q -> (q | fold_right Z.mul 1 l) -> exists x, In x l /\ (q | x).
Proof.
  induction l as [|a l IH]; intros q Pq D; cbn [fold_right] in D.
  - exfalso. pose proof (prime_ge2 q Pq). apply Z.divide_1_r_nonneg in D; lia.
  - apply prime_mult in D; [|exact Pq]. destruct D as [D|D]; [exists a; split; [left; reflexivity | exact D]|]. destruct (IH q Pq D) as [x [Hx Dx]]. exists x. split; [right; exact Hx | exact Dx].
Qed.
Lemma order_cert_spec : forall p L, prime (V p) -> 11 <= V p < 2 ^ 31 -> order_cert p L = true -> order_of (V p) (V L).
Proof.
  intros p L Pp Hp H. unfold order_cert in H. cbv zeta in H. set (fs := fl 300 divisors L) in H. clearbody fs. rewrite !andb_true_iff in H. destruct H as [[[[H1 H2] H3] H4] H5].
  apply iltb in H1. apply iltb in H2. change (V 0) with 0 in H1. change (V 65536) with 65536 in H2. apply Z.eqb_eq in H4. apply alls_spec in H3; [|exact Hp | exact H2]. split; [lia|].
  intros k Hk Fk. pose proof (fixed_gcd (V p) (V L) k Pp ltac:(lia) Hk H3 Fk) as Fg. pose proof (Z.gcd_divide_l (V L) k) as D1. pose proof (Z.gcd_divide_r (V L) k) as D2.
  set (g := Z.gcd (V L) k) in *. assert (G0 : 0 < g). { assert (0 <= g) by apply Z.gcd_nonneg. assert (g <> 0) by (intros C; apply Z.gcd_eq_0_l in C; lia). lia. }
  destruct D1 as [c Hc]. assert (0 < c) by (apply Z.mul_pos_cancel_r with g; lia). destruct (Z.eq_dec c 1) as [-> |Nc]; [rewrite Z.mul_1_l in Hc; rewrite Hc; exact D2|]. exfalso.
  destruct (smallest_prime_divisor c ltac:(lia)) as [q [Pq [Dq _]]]. destruct (prime_in_product (map to_Z fs) q Pq) as [x [Hx Dx]]; [rewrite H4, Hc; apply Z.divide_mul_l; exact Dq|].
  apply in_map_iff in Hx. destruct Hx as [f [<- Hf]]. rewrite forallb_forall in H5. specialize (H5 f Hf). rewrite !andb_true_iff in H5. destruct H5 as [[[F1 F2] F3] F4]. apply iltb in F1. apply iltb in F2. change (V 1) with 1 in F1. change (V 65536) with 65536 in F2.
  assert (Pf : prime (V f)) by (apply lpf_prime; [lia | apply to_Z_inj; apply ieqb in F3; exact F3]). apply prime_divides_prime in Dx; [|exact Pq | exact Pf]. subst q.
  apply negb_true_iff in F4. assert (Ed : V (L / f) = V L / V f) by apply div_spec. assert (C : alls (L / f) p = true); [|congruence].
  apply alls_spec; [exact Hp | rewrite Ed; apply Z.div_lt_upper_bound; [lia | change (2 ^ 16) with 65536; lia] |]. rewrite Ed. destruct Dq as [e ->]. replace (V L / V f) with (g * e) by (rewrite Hc; replace (e * V f * g) with (g * e * V f) by ring; rewrite Z.div_mul by lia; reflexivity).
  assert (0 < e) by (apply Z.mul_pos_cancel_r with (V f); lia). apply (fixed_mul _ g); [lia | apply Z.divide_factor_l | apply Z.mul_nonneg_nonneg; lia | exact Fg].
Qed.
