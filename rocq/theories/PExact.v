(** * is_prime64 accepts no composite below 2^20: a computation over all of them.
    The computation is on Coq's 63-bit machine integers. *)
From Coq Require Import ZArith Znumtheory List Lia Bool Sorted Zpow_facts Uint63.
From Verif Require Import Base Spec Ext NT PBase Tables MInteger MSieve MIsPrime PTables PSprp PIsPrime.
Import ListNotations.
Local Open Scope Z_scope.
Local Notation V := Uint63.to_Z.

(** ** Machine integers without overflow *)
Lemma iof : forall z, 0 <= z < 2 ^ 62 -> V (of_Z z) = z.
Proof. intros z H. rewrite of_Z_spec. apply Z.mod_small. change wB with (2 ^ 63). lia. Qed.
Lemma imul : forall a b, V a < 2 ^ 31 -> V b < 2 ^ 31 -> V (a * b) = V a * V b.
Proof.
  intros a b Ha Hb. pose proof (to_Z_bounded a). pose proof (to_Z_bounded b). rewrite mul_spec. apply Z.mod_small. change wB with (2 ^ 63).
  split; [apply Z.mul_nonneg_nonneg; lia|]. apply Z.le_lt_trans with (2 ^ 31 * 2 ^ 31); [apply Z.mul_le_mono_nonneg; lia | reflexivity].
Qed.
Lemma imod : forall a b, V (a mod b) = V a mod V b.
Proof. apply mod_spec. Qed.
Lemma ieqb : forall a b, (a =? b)%uint63 = true <-> V a = V b.
Proof. intros a b. rewrite eqb_spec. split; [intros ->; reflexivity | apply to_Z_inj]. Qed.
Lemma ieqbf : forall a b, (a =? b)%uint63 = false <-> V a <> V b.
Proof. intros a b. rewrite <- not_true_iff_false, ieqb. tauto. Qed.
Lemma iltb : forall a b, (a <? b)%uint63 = true <-> V a < V b.
Proof. apply ltb_spec. Qed.
Lemma ileb : forall a b, (a <=? b)%uint63 = true <-> V a <= V b.
Proof. apply leb_spec. Qed.
Lemma ihalf : forall e, V (e >> 1) = V e / 2.
Proof. intros e. rewrite lsr_spec. reflexivity. Qed.
Lemma iland1 : forall e, V (e land 1) = V e mod 2.
Proof. intros e. rewrite land_spec'. change (V 1) with (Z.ones 1). rewrite Z.land_ones by lia. reflexivity. Qed.

(** ** Trial division by an increasing list; 0 if there is no divisor up to the square root *)
Fixpoint lpf (ds : list int) (x : int) : int :=
  match ds with
  | [] => 0%uint63
  | d :: ds' => if (x <? d * d)%uint63 then 0%uint63 else if (x mod d =? 0)%uint63 then d else lpf ds' x
  end.
Lemma lpf_none : forall ds x, StronglySorted (fun a b => V a < V b) ds -> Forall (fun d => 0 < V d < 2 ^ 31) ds -> lpf ds x = 0%uint63 ->
  forall d, In d ds -> V d * V d <= V x -> ~ (V d | V x).
Proof.
  induction ds as [|d ds IH]; intros x Hs Hd E d' Hin Hle; [destruct Hin|]. inversion_clear Hs as [|? ? Hs' Hall]. inversion_clear Hd as [|? ? Hd0 Hd']. cbn [lpf] in E.
  destruct (x <? d * d)%uint63 eqn:C.
  - exfalso. apply iltb in C. rewrite imul in C by lia. destruct Hin as [<-|Hin]; [lia|]. rewrite Forall_forall in Hall. specialize (Hall d' Hin).
    assert (V d * V d <= V d' * V d') by (apply Z.mul_le_mono_nonneg; lia). lia.
  - destruct (x mod d =? 0)%uint63 eqn:M.
    + exfalso. subst d. change (V 0) with 0 in Hd0. lia.
    + destruct Hin as [<-|Hin]; [|apply IH; assumption]. apply ieqbf in M. rewrite imod in M. intros [k Hk]. apply M. rewrite Hk. apply Z.mod_mul. lia.
Qed.
Lemma lpf_some : forall ds x, V (lpf ds x) <> 0 -> (V (lpf ds x) | V x).
Proof.
  induction ds as [|d ds IH]; intros x H; cbn [lpf] in *; [contradiction H; reflexivity|]. destruct (x <? d * d)%uint63; [contradiction H; reflexivity|].
  destruct (x mod d =? 0)%uint63 eqn:M; [|apply IH; exact H]. apply ieqb in M. rewrite imod in M. apply Z.mod_divide; [exact H | exact M].
Qed.

(** the primes below 1024 *)
Definition divisors : list int := Eval vm_compute in map of_Z (filter fast_primeb (range_from 1022 2 1)).
Lemma divisors_eq : map to_Z divisors = filter fast_primeb (range_from (Z.to_nat (1024 - 2)) 2 1).
Proof. vm_compute. reflexivity. Qed.
Lemma divisors_in : forall p, prime p -> p < 1024 -> exists d, In d divisors /\ V d = p.
Proof.
  intros p Hp Hlt. destruct (filter_range_primes 1024) as [_ H]. rewrite <- divisors_eq in H. destruct (in_map_iff to_Z divisors p) as [K _].
  destruct (K (proj2 (H p) (conj Hp Hlt))) as [d [E Hin]]. exists d. auto.
Qed.
Lemma divisors_range : Forall (fun d => 0 < V d < 2 ^ 31) divisors.
Proof.
  apply Forall_forall. intros d Hd. destruct (filter_range_primes 1024) as [_ H]. rewrite <- divisors_eq in H. apply (in_map to_Z) in Hd. apply H in Hd. pose proof (prime_ge2 _ (proj1 Hd)). lia.
Qed.
Lemma divisors_sorted : StronglySorted (fun a b => V a < V b) divisors.
Proof.
  destruct (filter_range_primes 1024) as [S _]. rewrite <- divisors_eq in S. revert S. generalize divisors. induction l as [|a l IH]; intros S; cbn [map] in S; [constructor|].
  inversion_clear S as [|? ? S' F]. constructor; [apply IH, S'|]. apply Forall_forall. intros x Hx. rewrite Forall_forall in F. apply F, in_map, Hx.
Qed.
Lemma lpf_prime : forall x, 2 <= V x < 2 ^ 20 -> lpf divisors x = 0%uint63 -> prime (V x).
Proof.
  intros x Hx E. apply prime_no_small_divisor; [lia|]. intros p Hp Hpp Hd. pose proof (prime_ge2 p Hp) as P2.
  assert (p < 1024) by (apply Z.square_lt_simpl_nonneg; lia).
  destruct (divisors_in p Hp ltac:(assumption)) as [d [Hin Ed]]. subst p. exact (lpf_none divisors x divisors_sorted divisors_range E d Hin Hpp Hd).
Qed.

(** ** Fermat's test *)
Lemma pow_mod_l : forall a e m, 0 < m -> a ^ e mod m = (a mod m) ^ e mod m.
Proof. intros a e m H. apply Zpower_mod. exact H. Qed.
Fixpoint powi (k : nat) (b e m acc : int) : int :=
  match k with
  | O => acc
  | S k' => if (e =? 0)%uint63 then acc
            else powi k' (b * b mod m)%uint63 (e >> 1)%uint63 m (if (e land 1 =? 0)%uint63 then acc else (acc * b mod m)%uint63)
  end.
Lemma powi_spec : forall k b e m acc, 0 < V m < 2 ^ 31 -> V b < V m -> V acc < V m -> V e < 2 ^ Z.of_nat k ->
  V (powi k b e m acc) = (V acc * V b ^ V e) mod V m.
Proof.
  induction k as [|k IH]; intros b e m acc Hm Hb Ha He; pose proof (to_Z_bounded e) as Be; pose proof (to_Z_bounded b) as Bb; pose proof (to_Z_bounded acc) as Ba; cbn [powi].
  - change (2 ^ Z.of_nat 0) with 1 in He. replace (V e) with 0 by lia. rewrite Z.pow_0_r, Z.mul_1_r. symmetry. apply Z.mod_small. lia.
  - destruct (e =? 0)%uint63 eqn:E0; [apply ieqb in E0; change (V 0) with 0 in E0; rewrite E0, Z.pow_0_r, Z.mul_1_r; symmetry; apply Z.mod_small; lia|].
    assert (Hb2 : V ((b * b) mod m) = (V b * V b) mod V m) by (rewrite imod, imul by lia; reflexivity).
    assert (Ha2 : V ((acc * b) mod m) = (V acc * V b) mod V m) by (rewrite imod, imul by lia; reflexivity).
    pose proof (Z.mod_pos_bound (V b * V b) (V m) ltac:(lia)) as M1. pose proof (Z.mod_pos_bound (V acc * V b) (V m) ltac:(lia)) as M2.
    assert (He2 : V (e >> 1) < 2 ^ Z.of_nat k).
    { rewrite ihalf. apply Z.div_lt_upper_bound; [lia|]. rewrite Nat2Z.inj_succ, Z.pow_succ_r in He by lia. exact He. }
    assert (P : forall c, (c * (V b * V b) ^ (V e / 2)) mod V m = (c * ((V b * V b) mod V m) ^ (V e / 2)) mod V m).
    { intros c. rewrite <- (Z.mul_mod_idemp_r c (_ ^ _)), <- (Z.mul_mod_idemp_r c ((_ mod _) ^ _)) by lia. f_equal. f_equal. apply pow_mod_l. lia. }
    pose proof (Z.div_mod (V e) 2 ltac:(lia)) as DM. pose proof (Z.mod_pos_bound (V e) 2 ltac:(lia)) as M3. pose proof (Z.div_pos (V e) 2 ltac:(lia) ltac:(lia)) as DP.
    assert (X : V b ^ V e = (V b * V b) ^ (V e / 2) * V b ^ (V e mod 2)).
    { rewrite DM at 1. rewrite Z.pow_add_r, Z.pow_mul_r by lia. rewrite Z.pow_2_r. reflexivity. }
    destruct (e land 1 =? 0)%uint63 eqn:E1.
    + rewrite IH by (try rewrite Hb2; try lia; exact He2). rewrite Hb2, ihalf. apply ieqb in E1. rewrite iland1 in E1. change (V 0) with 0 in E1. rewrite X, E1, Z.pow_0_r, Z.mul_1_r. symmetry. apply P.
    + rewrite IH by (try rewrite Hb2; try rewrite Ha2; try lia; exact He2). rewrite Hb2, Ha2, ihalf. apply ieqbf in E1. rewrite iland1 in E1. change (V 0) with 0 in E1.
      replace (V e mod 2) with 1 in X by lia. rewrite X, Z.pow_1_r, Z.mul_mod_idemp_l by lia. rewrite <- P. f_equal. ring.
Qed.
Definition fermat (b n : int) : bool := (powi 20 (b mod n) (n - 1) n 1 =? 1)%uint63.
Lemma fermat_spec : forall b n a, V b = a -> 2 <= V n < 2 ^ 20 -> a ^ (V n - 1) mod V n = 1 -> fermat b n = true.
Proof.
  intros b n a <- Hn H. unfold fermat. apply ieqb. change (V 1) with 1. pose proof (to_Z_bounded b) as Bb.
  assert (E : V (n - 1) = V n - 1) by (rewrite sub_spec; change (V 1) with 1; apply Z.mod_small; change wB with (2 ^ 63); lia).
  rewrite powi_spec; [| lia | rewrite imod; apply Z.mod_pos_bound; lia | change (V 1) with 1; lia | rewrite E; change (Z.of_nat 20) with 20; lia].
  change (V 1) with 1. rewrite Z.mul_1_l, E, imod, <- pow_mod_l by lia. exact H.
Qed.
Lemma strong_fermat : forall n a, 3 <= n -> strong_prp n a -> a ^ (n - 1) mod n = 1.
Proof.
  intros n a Hn [d [s [Hs [Hd [E H]]]]].
  assert (Dp : 0 < d). { assert (0 < 2 ^ s) by (apply Z.pow_pos_nonneg; lia). destruct (Z.le_gt_cases d 0); [|lia]. assert (d * 2 ^ s <= 0) by (apply Z.mul_nonpos_nonneg; lia). lia. }
  destruct H as [H|[r [Hr H]]].
  - rewrite E, Z.pow_mul_r, pow_mod_l, H by (try apply Z.pow_nonneg; lia). rewrite <- pow_mod_l by lia. rewrite Z.pow_1_l by (apply Z.pow_nonneg; lia). apply Z.mod_small. lia.
  - replace (n - 1) with (d * 2 ^ r * 2 ^ (s - r)) by (rewrite E, <- Z.mul_assoc, <- Z.pow_add_r by lia; f_equal; f_equal; lia).
    assert (0 <= 2 ^ r) by (apply Z.pow_nonneg; lia). assert (0 <= 2 ^ (s - r)) by (apply Z.pow_nonneg; lia).
    rewrite Z.pow_mul_r, pow_mod_l, H, <- pow_mod_l by (try apply Z.mul_nonneg_nonneg; lia).
    replace (2 ^ (s - r)) with (2 * 2 ^ (s - r - 1)) by (rewrite <- Z.pow_succ_r by lia; f_equal; lia).
    rewrite Z.pow_mul_r by (try apply Z.pow_nonneg; lia). change ((-1) ^ 2) with 1. rewrite Z.pow_1_l by (apply Z.pow_nonneg; lia). apply Z.mod_small. lia.
Qed.

(** ** The hash that selects the base *)
Definition hashi (x : int) : int :=
  let h := (((x >> 16) lxor x) * 73244475)%uint63 in
  let h := (((h >> 16) lxor h) * 73244475)%uint63 in
  (((h >> 16) lxor h) land 255)%uint63.
Lemma low_bits : forall X, Z.land (Z.lxor (Z.shiftr (X mod 2 ^ 63) 16) (X mod 2 ^ 63)) 255 = Z.land (Z.lxor (Z.shiftr (X mod 2 ^ 64) 16) (X mod 2 ^ 64)) 255.
Proof.
  intros X. apply Z.bits_inj'. intros i Hi. rewrite !Z.land_spec, !Z.lxor_spec, !Z.shiftr_spec by lia. change 255 with (Z.ones 8).
  destruct (Z.lt_ge_cases i 8) as [H|H]; [|rewrite Z.ones_spec_high, !andb_false_r by lia; reflexivity].
  rewrite !Z.mod_pow2_bits_low by lia. reflexivity.
Qed.
Lemma lxor_small : forall a b k, 0 <= k -> 0 <= a < 2 ^ k -> 0 <= b < 2 ^ k -> 0 <= Z.lxor a b < 2 ^ k.
Proof.
  intros a b k Hk Ha Hb. split; [apply Z.lxor_nonneg; lia|]. destruct (Z.eq_dec (Z.lxor a b) 0) as [->|N]; [lia|].
  assert (0 <= Z.lxor a b) by (apply Z.lxor_nonneg; lia). apply Z.log2_lt_pow2; [lia|].
  pose proof (Z.log2_lxor a b ltac:(lia) ltac:(lia)) as L.
  assert (La : a = 0 \/ Z.log2 a < k) by (destruct (Z.eq_dec a 0); [left; assumption | right; apply Z.log2_lt_pow2; lia]).
  assert (Lb : b = 0 \/ Z.log2 b < k) by (destruct (Z.eq_dec b 0); [left; assumption | right; apply Z.log2_lt_pow2; lia]).
  destruct La as [->|La], Lb as [->|Lb]; rewrite ?Z.lxor_0_l, ?Z.lxor_0_r in *; try change (Z.log2 0) with 0 in L; try lia.
Qed.
Lemma hashi_spec : forall x, V x < 2 ^ 20 -> V (hashi x) = hash32 (V x).
Proof.
  intros x Hx. pose proof (to_Z_bounded x) as B. unfold hashi, hash32.
  rewrite land_spec', lxor_spec', lsr_spec. change (V 255) with 255. change (2 ^ V 16) with (2 ^ 16). rewrite <- Z.shiftr_div_pow2 by lia.
  set (h1 := (((x >> 16) lxor x) * 73244475)%uint63).
  assert (S1 : 0 <= Z.lxor (Z.shiftr (V x) 16) (V x) < 2 ^ 20).
  { apply lxor_small; [lia| |lia]. rewrite Z.shiftr_div_pow2 by lia. split; [apply Z.div_pos; lia|]. apply Z.div_lt_upper_bound; lia. }
  assert (E1 : V h1 = (Z.lxor (Z.shiftr (V x) 16) (V x) * 73244475) mod 2 ^ 64).
  { assert (Ex : V ((x >> 16) lxor x) = Z.lxor (Z.shiftr (V x) 16) (V x)) by (rewrite lxor_spec', lsr_spec; change (2 ^ V 16) with (2 ^ 16); rewrite <- Z.shiftr_div_pow2 by lia; reflexivity).
    unfold h1. rewrite imul; [| rewrite Ex; lia | reflexivity]. rewrite Ex. change (V 73244475) with 73244475. rewrite Z.mod_small by lia. reflexivity. }
  rewrite mul_spec, lxor_spec', lsr_spec. change (2 ^ V 16) with (2 ^ 16). change (V 73244475) with 73244475. rewrite <- Z.shiftr_div_pow2 by lia. rewrite E1. change wB with (2 ^ 63). apply low_bits.
Qed.
Fixpoint nthi (l : list int) (i : int) : int :=
  match l with [] => 0%uint63 | x :: l' => if (i =? 0)%uint63 then x else nthi l' (i - 1)%uint63 end.
Lemma nthi_spec : forall l i, V (nthi l i) = nth (Z.to_nat (V i)) (map to_Z l) 0.
Proof.
  induction l as [|x l IH]; intros i; cbn [nthi map]; [destruct (Z.to_nat (V i)); reflexivity|]. pose proof (to_Z_bounded i) as B.
  destruct (i =? 0)%uint63 eqn:E; [apply ieqb in E; rewrite E; reflexivity|]. apply ieqbf in E. change (V 0) with 0 in E.
  assert (E' : V (i - 1) = V i - 1) by (rewrite sub_spec; change (V 1) with 1; apply Z.mod_small; lia).
  rewrite IH, E'. replace (Z.to_nat (V i)) with (S (Z.to_nat (V i - 1))) by lia. reflexivity.
Qed.
Definition bases32 : list int := Eval vm_compute in map of_Z MILLER_RABIN_BASE32.
Lemma bases32_eq : map to_Z bases32 = MILLER_RABIN_BASE32.
Proof. vm_compute. reflexivity. Qed.
Lemma base32i : forall x, V x < 2 ^ 20 -> V (nthi bases32 (hashi x)) = base32 (V x).
Proof. intros x Hx. rewrite nthi_spec, bases32_eq, hashi_spec by exact Hx. unfold base32. reflexivity. Qed.

(** ** The check of a range of 2^k numbers *)
Fixpoint pall (f : int -> bool) (k : nat) (lo : int) : bool :=
  match k with O => f lo | S k' => pall f k' lo && pall f k' (lo + of_Z (2 ^ Z.of_nat k'))%uint63 end.
Lemma pall_spec : forall f k lo, pall f k lo = true -> (k <= 60)%nat -> V lo < 2 ^ 60 -> forall z, V lo <= z < V lo + 2 ^ Z.of_nat k -> V lo + 2 ^ Z.of_nat k <= 2 ^ 60 -> f (of_Z z) = true.
Proof.
  intros f. induction k as [|k IH]; intros lo H Hk Hlo z Hz Hb; cbn [pall] in H; pose proof (to_Z_bounded lo) as B.
  - change (2 ^ Z.of_nat 0) with 1 in Hz. replace z with (V lo) by lia. rewrite of_to_Z. exact H.
  - apply andb_true_iff in H. destruct H as [H1 H2]. rewrite Nat2Z.inj_succ, Z.pow_succ_r in Hz, Hb by lia. assert (P : 0 < 2 ^ Z.of_nat k) by (apply Z.pow_pos_nonneg; lia).
    assert (E : V (lo + of_Z (2 ^ Z.of_nat k)) = V lo + 2 ^ Z.of_nat k).
    { rewrite add_spec, iof by lia. apply Z.mod_small. change wB with (2 ^ 63). lia. }
    destruct (Z.lt_ge_cases z (V lo + 2 ^ Z.of_nat k)) as [L|G]; [apply (IH lo H1); lia|]. apply (IH _ H2); rewrite ?E; lia.
Qed.
Fixpoint mem (l : list int) (x : int) : bool := match l with [] => false | y :: l' => (x =? y)%uint63 || mem l' x end.
Lemma mem_in : forall l x, mem l x = true -> In (V x) (map to_Z l).
Proof.
  induction l as [|y l IH]; intros x H; cbn [mem map] in *; [discriminate|]. apply orb_true_iff in H. destruct H as [H|H]; [left; apply ieqb in H; auto | right; apply IH, H].
Qed.
(** composites that pass Fermat's test to the base tried, with all divisors above 5 / 11 *)
Fixpoint pfind (f : int -> bool) (k : nat) (lo : int) (acc : list int) : list int :=
  match k with O => if f lo then acc else lo :: acc | S k' => pfind f k' lo (pfind f k' (lo + of_Z (2 ^ Z.of_nat k'))%uint63 acc) end.
Definition small_exceptions : list int := Eval vm_compute in
  pfind (fun x => let d := lpf divisors x in (d =? 0)%uint63 || (d <=? 5)%uint63 || negb (fermat 2 x)) 20 0%uint63 [].
Definition big_exceptions : list int := Eval vm_compute in
  pfind (fun x => let d := lpf divisors x in (d =? 0)%uint63 || (d <=? 11)%uint63 || negb (fermat (nthi bases32 (hashi x)) x)) 20 0%uint63 [].
Definition check20 (x : int) : bool :=
  let d := lpf divisors x in
  if (d =? 0)%uint63 then true
  else if (d <=? 5)%uint63 then true
  else (negb (fermat 2 x) || mem small_exceptions x) &&
       ((d <=? 11)%uint63 || negb (fermat (nthi bases32 (hashi x)) x) || mem big_exceptions x).
Lemma check20_all : pall check20 20 0 = true.
Proof. vm_compute. reflexivity. Qed.
Definition rejected (f : feature) (n : Z) : bool := match is_prime64 f Debug n with Ret b => negb b | _ => false end.
Lemma small_exceptions_rejected : forallb (rejected SmallTable) (map to_Z small_exceptions) = true.
Proof. vm_compute. reflexivity. Qed.
Lemma big_exceptions_rejected : forallb (rejected BigTable) (map to_Z big_exceptions) = true.
Proof. vm_compute. reflexivity. Qed.
Lemma rejected_z : forall f n, n < 2 ^ 64 -> rejected f n = true -> z_is_prime64 f n = false.
Proof. intros f n Hn. unfold rejected. rewrite is_prime64_law by exact Hn. destruct (z_is_prime64 f n); [discriminate | reflexivity]. Qed.

Lemma wheel_no : forall f n d, (forall p, prime p -> (p | WHEEL_SIZE f) -> ~ (p | n)) -> (d | n) -> 2 <= d -> d <= match f with BigTable => 11 | SmallTable => 5 end -> False.
Proof.
  intros f n d H Hd H2 Hle.
  assert (K : forall q, prime q -> (q | WHEEL_SIZE f) -> (q | d) -> False) by (intros q Q1 Q2 Q3; apply (H q Q1 Q2); eapply Z.divide_trans; eassumption).
  assert (P5 : prime 5) by (apply fast_primeb_spec; reflexivity).
  assert (P7 : prime 7) by (apply fast_primeb_spec; reflexivity).
  assert (P11 : prime 11) by (apply fast_primeb_spec; reflexivity).
  assert (W : (2 | WHEEL_SIZE f) /\ (3 | WHEEL_SIZE f) /\ (5 | WHEEL_SIZE f)) by (destruct f; repeat split; apply Z.mod_divide; try lia; reflexivity).
  destruct W as [W2 [W3 W5]].
  assert (C : d = 2 \/ d = 3 \/ d = 4 \/ d = 5 \/ d = 6 \/ d = 7 \/ d = 8 \/ d = 9 \/ d = 10 \/ d = 11) by (destruct f; lia).
  destruct C as [->|[->|[->|[->|[->|[->|[->|[->|[->| ->]]]]]]]]];
    first [ apply (K 2 prime_2 W2); apply Z.mod_divide; [lia | reflexivity]
          | apply (K 3 prime_3 W3); apply Z.mod_divide; [lia | reflexivity]
          | apply (K 5 P5 W5); apply Z.mod_divide; [lia | reflexivity]
          | destruct f; [apply (K 7 P7); apply Z.mod_divide; (lia || reflexivity) | lia]
          | destruct f; [apply (K 11 P11); apply Z.mod_divide; (lia || reflexivity) | lia] ].
Qed.
(** below 2^20 the answer is exact *)
Theorem z_is_prime64_exact : forall f n, n < 2 ^ 20 -> (z_is_prime64 f n = true <-> prime n).
Proof.
  intros f n Hn. split; [|apply z_is_prime64_complete]. intros E. pose proof E as E0. apply z_is_prime64_sound_partial in E.
  destruct (Z.ltb_spec n (SMALL_PRIMES_NEXT f - 1)) as [H|H]; [exact E|]. rewrite small_next in H. assert (256 <= n) by (destruct f; lia). destruct E as [Ho [Hw Hb]].
  pose proof (pall_spec check20 20 0%uint63 check20_all ltac:(lia) ltac:(reflexivity) n) as C. change (V 0) with 0 in C. change (2 ^ Z.of_nat 20) with (2 ^ 20) in C. specialize (C ltac:(lia) ltac:(lia)).
  set (x := of_Z n) in C. assert (Ex : V x = n) by (apply iof; lia). unfold check20 in C. set (d := lpf divisors x) in C.
  destruct (d =? 0)%uint63 eqn:D0; [rewrite <- Ex; apply lpf_prime; [lia|]; apply to_Z_inj; apply ieqb in D0; exact D0|].
  apply ieqbf in D0. change (V 0) with 0 in D0. assert (Dd : (V d | n)) by (rewrite <- Ex; apply lpf_some; exact D0). pose proof (to_Z_bounded d) as Bd.
  assert (D1 : V d <> 1).
  { intros D1. assert (Hin : In d divisors \/ d = 0%uint63).
    { unfold d. generalize divisors. induction l as [|a l IH]; cbn [lpf]; [right; reflexivity|]. destruct (x <? a * a)%uint63; [right; reflexivity|]. destruct (x mod a =? 0)%uint63; [left; left; reflexivity|]. destruct IH as [IH|IH]; [left; right; exact IH | right; exact IH]. }
    destruct Hin as [Hin|Hin]; [|rewrite Hin in D1; discriminate D1]. destruct (filter_range_primes 1024) as [_ K]. rewrite <- divisors_eq in K. apply (in_map to_Z) in Hin. apply K in Hin. pose proof (prime_ge2 _ (proj1 Hin)). lia. }
  exfalso. destruct (d <=? 5)%uint63 eqn:D5.
  { apply ileb in D5. change (V 5) with 5 in D5. apply (wheel_no f n (V d) Hw Dd); [lia | destruct f; lia]. }
  apply andb_true_iff in C. destruct C as [C1 C2]. destruct f.
  - apply orb_true_iff in C2. destruct C2 as [C2|C2]; [apply orb_true_iff in C2; destruct C2 as [C2|C2]|].
    + apply ileb in C2. change (V 11) with 11 in C2. apply (wheel_no BigTable n (V d) Hw Dd); lia.
    + apply negb_true_iff in C2. assert (F : fermat (nthi bases32 (hashi x)) x = true); [|congruence].
      apply (fermat_spec _ x (base32 n)); [rewrite <- Ex; apply base32i; lia | lia|]. rewrite Ex. apply strong_fermat; [lia|]. apply Hb. unfold miller_bases. replace (n <? 2 ^ 32) with true by (symmetry; apply Z.ltb_lt; lia). left. reflexivity.
    + apply mem_in in C2. rewrite Ex in C2. pose proof (proj1 (forallb_forall _ _) big_exceptions_rejected n C2) as R. apply rejected_z in R; [congruence | lia].
  - apply orb_true_iff in C1. destruct C1 as [C1|C1].
    + apply negb_true_iff in C1. assert (F : fermat 2 x = true); [|congruence].
      apply (fermat_spec _ x 2); [reflexivity | lia|]. rewrite Ex. apply strong_fermat; [lia|]. apply Hb. unfold miller_bases. replace (n <? 2 ^ 32) with true by (symmetry; apply Z.ltb_lt; lia). left. reflexivity.
    + apply mem_in in C1. rewrite Ex in C1. pose proof (proj1 (forallb_forall _ _) small_exceptions_rejected n C1) as R. apply rejected_z in R; [congruence | lia].
Qed.

(** ** Counting the primes up to 1015809 = 1 + 2^19 + 2^18 + 2^17 + 2^16 + 2^15 *)
Fixpoint pcount (k : nat) (lo : int) : int :=
  match k with
  | O => if (lpf divisors lo =? 0)%uint63 then 1%uint63 else 0%uint63
  | S k' => (pcount k' lo + pcount k' (lo + of_Z (2 ^ Z.of_nat k')))%uint63
  end.
Lemma lpf_small : forall ds x, Forall (fun d => 0 < V d < 2 ^ 31) ds -> lpf ds x <> 0%uint63 -> In (lpf ds x) ds /\ V (lpf ds x) * V (lpf ds x) <= V x.
Proof.
  induction ds as [|d ds IH]; intros x F H; cbn [lpf] in *; [contradiction H; reflexivity|]. inversion_clear F as [|? ? Fd F']. destruct (x <? d * d)%uint63 eqn:C; [contradiction H; reflexivity|].
  destruct (x mod d =? 0)%uint63 eqn:M.
  - split; [left; reflexivity|]. apply Z.nlt_ge. intros L. rewrite <- imul in L by lia. apply iltb in L. congruence.
  - destruct (IH x F' H) as [A B]. split; [right; exact A | exact B].
Qed.
Lemma lpf_primeb : forall x, 2 <= V x < 2 ^ 20 -> (lpf divisors x =? 0)%uint63 = primeb (V x).
Proof.
  intros x Hz. apply eq_true_iff_eq. rewrite primeb_spec, ieqb. change (V 0) with 0. split.
  - intros H. apply lpf_prime; [lia|]. apply to_Z_inj. exact H.
  - intros Hp. destruct (Z.eq_dec (V (lpf divisors x)) 0) as [X|X]; [exact X|]. exfalso.
    pose proof (lpf_some divisors x X) as D.
    destruct (lpf_small divisors x divisors_range) as [Hin Hsq]; [intros C; apply X; rewrite C; reflexivity|].
    destruct (filter_range_primes 1024) as [_ K]. rewrite <- divisors_eq in K. apply (in_map to_Z) in Hin. apply K in Hin. destruct Hin as [Pq _].
    pose proof (prime_ge2 _ Pq) as Q2. apply (prime_divides_prime _ _ Pq Hp) in D. rewrite D in Hsq. assert (2 * V x <= V x * V x) by (apply Z.mul_le_mono_nonneg_r; lia). lia.
Qed.
Lemma pcount_spec : forall k lo, 2 <= V lo -> V lo + 2 ^ Z.of_nat k <= 2 ^ 20 ->
  V (pcount k lo) = prime_count (V lo + 2 ^ Z.of_nat k - 1) - prime_count (V lo - 1) /\ V (pcount k lo) <= 2 ^ Z.of_nat k.
Proof.
  induction k as [|k IH]; intros lo Hlo Hb; cbn [pcount].
  - change (2 ^ Z.of_nat 0) with 1 in *. replace (V lo + 1 - 1) with (V lo - 1 + 1) by lia. rewrite pc_step by lia. replace (V lo - 1 + 1) with (V lo) by lia.
    rewrite lpf_primeb by lia. destruct (primeb (V lo)); [change (V 1) with 1 | change (V 0) with 0]; lia.
  - rewrite Nat2Z.inj_succ, Z.pow_succ_r in * by lia. assert (P : 0 < 2 ^ Z.of_nat k) by (apply Z.pow_pos_nonneg; lia).
    assert (E : V (lo + of_Z (2 ^ Z.of_nat k)) = V lo + 2 ^ Z.of_nat k) by (rewrite add_spec, iof by lia; apply Z.mod_small; change wB with (2 ^ 63); lia).
    destruct (IH lo Hlo ltac:(lia)) as [A1 A2]. destruct (IH (lo + of_Z (2 ^ Z.of_nat k))%uint63 ltac:(lia) ltac:(lia)) as [B1 B2]. rewrite E in B1.
    pose proof (to_Z_bounded (pcount k lo)). pose proof (to_Z_bounded (pcount k (lo + of_Z (2 ^ Z.of_nat k)))).
    assert (Q : V (pcount k lo + pcount k (lo + of_Z (2 ^ Z.of_nat k))) = V (pcount k lo) + V (pcount k (lo + of_Z (2 ^ Z.of_nat k)))) by (rewrite add_spec; apply Z.mod_small; change wB with (2 ^ 63); lia).
    rewrite Q. split; [|lia]. rewrite A1, B1. replace (V lo + 2 * 2 ^ Z.of_nat k - 1) with (V lo + 2 ^ Z.of_nat k + 2 ^ Z.of_nat k - 1) by lia. lia.
Qed.
Lemma pieces : pcount 19 2 = 43390%uint63 /\ pcount 18 524290 = 19557%uint63 /\ pcount 17 786434 = 9600%uint63 /\ pcount 16 917506 = 4732%uint63 /\ pcount 15 983042 = 2388%uint63.
Proof. vm_compute. repeat split; reflexivity. Qed.
Theorem primes_upto_1015809 : prime_count 1015809 = 79667.
Proof.
  destruct pieces as [P1 [P2 [P3 [P4 P5]]]].
  pose proof (proj1 (pcount_spec 19 2%uint63 ltac:(reflexivity || discriminate) ltac:(discriminate))) as Q19. rewrite P1 in Q19. change (V 43390) with 43390 in Q19. change (V 2) with 2 in Q19. change (2 + 2 ^ Z.of_nat 19 - 1) with 524289 in Q19. change (2 - 1) with 1 in Q19.
  pose proof (proj1 (pcount_spec 18 524290%uint63 ltac:(reflexivity || discriminate) ltac:(discriminate))) as Q18. rewrite P2 in Q18. change (V 19557) with 19557 in Q18. change (V 524290) with 524290 in Q18. change (524290 + 2 ^ Z.of_nat 18 - 1) with 786433 in Q18. change (524290 - 1) with 524289 in Q18.
  pose proof (proj1 (pcount_spec 17 786434%uint63 ltac:(reflexivity || discriminate) ltac:(discriminate))) as Q17. rewrite P3 in Q17. change (V 9600) with 9600 in Q17. change (V 786434) with 786434 in Q17. change (786434 + 2 ^ Z.of_nat 17 - 1) with 917505 in Q17. change (786434 - 1) with 786433 in Q17.
  pose proof (proj1 (pcount_spec 16 917506%uint63 ltac:(reflexivity || discriminate) ltac:(discriminate))) as Q16. rewrite P4 in Q16. change (V 4732) with 4732 in Q16. change (V 917506) with 917506 in Q16. change (917506 + 2 ^ Z.of_nat 16 - 1) with 983041 in Q16. change (917506 - 1) with 917505 in Q16.
  pose proof (proj1 (pcount_spec 15 983042%uint63 ltac:(reflexivity || discriminate) ltac:(discriminate))) as Q15. rewrite P5 in Q15. change (V 2388) with 2388 in Q15. change (V 983042) with 983042 in Q15. change (983042 + 2 ^ Z.of_nat 15 - 1) with 1015809 in Q15. change (983042 - 1) with 983041 in Q15.
  assert (prime_count 1 = 0) by reflexivity. lia.
Qed.
