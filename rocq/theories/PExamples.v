(** * Proofs about the example programs. *)
From Coq Require Import ZArith Znumtheory Zpow_facts List Lia Bool Sorted Permutation.
From Verif Require Import Base Spec SpecEx Ext Ops NT NTPock PBase MInteger MSieve MTraits MIsPrime MFactorize MExamples PIsPrime PMoebius PLucky PDivisors.
Import ListNotations.
Local Open Scope Z_scope.

(** ** divisor_sigma *)
Definition zsum (l : list Z) : Z := fold_right Z.add 0 l.
Lemma zsum_perm : forall l l', Permutation l l' -> zsum l = zsum l'.
Proof. intros l l' H. unfold zsum. induction H; cbn [fold_right]; lia. Qed.
Lemma sigma_list : forall n z l, 1 <= n -> lists_divisors l n -> zsum (map (fun d => d ^ z) l) = sigma z n.
Proof.
  intros n z l Hn [ND H]. set (all := map Z.of_nat (seq 1 (Z.to_nat n))).
  assert (P : Permutation l (filter (fun d => n mod d =? 0) all)).
  { apply NoDup_Permutation; [exact ND | apply NoDup_filter, FinFun.Injective_map_NoDup; [intros a b E; lia | apply seq_NoDup]|].
    intros d. rewrite H, filter_In. unfold all. rewrite in_map_iff. split.
    - intros [H1 H2]. split; [|apply Z.eqb_eq, Z.mod_divide; [lia | exact H2]]. exists (Z.to_nat d). apply divide_pos_le in H2 as L; [|lia]. split; [lia | apply in_seq; lia].
    - intros [[i [<- Hi]] E]. apply in_seq in Hi. split; [lia|]. apply Z.mod_divide; [lia | apply Z.eqb_eq, E]. }
  rewrite (zsum_perm _ _ (Permutation_map (fun d => d ^ z) P)). unfold sigma, all, zsum. generalize (seq 1 (Z.to_nat n)). intros s. induction s as [|i s IH]; cbn [map filter fold_right]; [reflexivity|].
  cbv zeta in *. destruct (n mod Z.of_nat i =? 0); cbn [map fold_right]; rewrite IH; lia.
Qed.
Lemma sigma_fold : forall pf z l acc, 0 <= z -> (forall d, In d l -> 1 <= d) -> 0 <= acc < 2 ^ 64 ->
  foldM (fun acc d => q <- pow64 pf d z ;; add_ pf u64 acc q) l acc = wrapz pf u64 (acc + zsum (map (fun d => d ^ z) l)).
Proof.
  intros pf z l. induction l as [|d l IH]; intros acc Hz Hd Ha; cbn [foldM map zsum fold_right]; [rewrite Z.add_0_r, wrapz_ok by (rngs; lia); reflexivity|].
  assert (D1 : 1 <= d) by (apply Hd; left; reflexivity). pose proof (Z.pow_pos_nonneg d z ltac:(lia) Hz) as Pd. assert (Hd' : forall x, In x l -> 1 <= x) by (intros x Hx; apply Hd; right; exact Hx).
  assert (S0 : 0 <= zsum (map (fun d => d ^ z) l)).
  { clear - Hd' Hz. induction l as [|x l IH]; cbn [map zsum fold_right]; [lia|]. pose proof (Z.pow_pos_nonneg x z ltac:(specialize (Hd' x (or_introl eq_refl)); lia) Hz). specialize (IH ltac:(intros y Hy; apply Hd'; right; exact Hy)). unfold zsum in IH. lia. }
  fold (zsum (map (fun d => d ^ z) l)). set (S := zsum (map (fun d => d ^ z) l)) in *. unfold pow64, add_, wrapz, u64, in_rangeb. 
  destruct pf.
  - destruct (Z.leb_spec 0 (d ^ z)) as [_|C]; [|lia]. destruct (Z.ltb_spec (d ^ z) (2 ^ 64)) as [L|L]; cbn [andb bind].
    + destruct (Z.leb_spec 0 (acc + d ^ z)) as [_|C]; [|lia]. destruct (Z.ltb_spec (acc + d ^ z) (2 ^ 64)) as [L2|L2]; cbn [andb bind].
      * rewrite IH by (assumption || lia). fold S. rewrite Z.add_assoc. reflexivity.
      * replace (_ && _) with false; [reflexivity|]. symmetry. apply andb_false_iff. right. apply Z.ltb_ge. lia.
    + replace (_ && _) with false; [reflexivity|]. symmetry. apply andb_false_iff. right. apply Z.ltb_ge. lia.
  - assert (W : forall x, 0 <= x -> (if (0 <=? x) && (x <? 2 ^ 64) then Ret x else Ret (x mod 2 ^ 64)) = Ret (x mod 2 ^ 64)).
    { intros x Hx. destruct (Z.leb_spec 0 x) as [_|C]; [|lia]. destruct (Z.ltb_spec x (2 ^ 64)) as [L|L]; cbn [andb]; [rewrite Z.mod_small by lia|]; reflexivity. }
    rewrite W by lia. cbn [bind]. pose proof (Z.mod_pos_bound (d ^ z) (2 ^ 64) ltac:(lia)). rewrite W by lia. cbn [bind].
    pose proof (Z.mod_pos_bound (acc + d ^ z mod 2 ^ 64) (2 ^ 64) ltac:(lia)). rewrite IH by (assumption || lia). fold S. unfold wrapz, u64, in_rangeb. rewrite !W by lia. f_equal.
    rewrite Z.add_mod_idemp_r by lia. rewrite Z.add_mod_idemp_l by lia. f_equal. ring.
Qed.

(** ** prime_Omega *)
Lemma Omega_fold : forall pf (m : list (Z * Z)) acc, Forall (fun pe => 1 <= snd pe) m -> 0 <= acc -> acc + zsum (map snd m) < 2 ^ 64 -> foldM (fun acc pe => add_ pf usize acc (snd pe)) m acc = Ret (acc + zsum (map snd m)).
Proof.
  intros pf m. induction m as [|[p e] m IH]; intros acc F Ha HB; cbn [foldM map zsum fold_right snd] in *; [rewrite Z.add_0_r; reflexivity|]. inversion F as [|? ? A F']; subst. cbn [snd] in A.
  assert (S0 : 0 <= zsum (map snd m)). { clear - F'. induction F' as [|x l A F IH]; cbn [map zsum fold_right]; [lia|]. unfold zsum in IH. lia. }
  fold (zsum (map snd m)) in *. rewrite add_ok by (rngs; lia). cbn [bind]. rewrite IH by (assumption || lia). rewrite Z.add_assoc. reflexivity.
Qed.
(** The exponents of a factorization of n < 2^64 add up to less than 64. *)
Lemma exps_bound : forall m, good m -> 2 ^ zsum (map snd m) <= prod_powers m /\ 0 <= zsum (map snd m).
Proof.
  induction m as [|[p e] m IH]; intros G; cbn [map zsum fold_right snd prod_powers]; [split; [reflexivity | lia]|]. inversion G as [|? ? [A B] G']; subst. cbn [fst snd] in *. destruct (IH G') as [I1 I2]. fold (zsum (map snd m)).
  split; [|lia]. rewrite Z.pow_add_r by lia. apply Z.mul_le_mono_nonneg; [apply Z.pow_nonneg; lia | apply Z.pow_le_mono_l; lia | apply Z.pow_nonneg; lia | exact I1].
Qed.
Fixpoint expand (m : list (Z * Z)) : list Z := match m with [] => [] | (p, e) :: m' => repeat p (Z.to_nat e) ++ expand m' end.
Lemma prod_repeat : forall p k, prod (repeat p k) = p ^ Z.of_nat k.
Proof. intros p. induction k as [|k IH]; [reflexivity|]. cbn [repeat prod]. rewrite IH, Nat2Z.inj_succ, Z.pow_succ_r by lia. reflexivity. Qed.
Lemma expand_spec : forall n m, prime_factorization n m -> prime_product n (expand m) /\ Z.of_nat (length (expand m)) = zsum (map snd m).
Proof.
  intros n m [[_ E] [P F]]. rewrite <- F. clear F. induction m as [|[p e] m IH]; cbn [expand prod_powers map zsum fold_right snd]; [split; [split; [constructor | reflexivity] | reflexivity]|].
  inversion E as [|? ? A E']; subst. inversion P as [|? ? B P']; subst. cbn [fst snd] in *. destruct (IH E' P') as [[I1 I2] I3]. fold (zsum (map snd m)). split; [split|].
  - apply Forall_app. split; [|exact I1]. apply Forall_forall. intros x Hx. apply repeat_spec in Hx. subst. exact B.
  - rewrite prod_app, prod_repeat, I2, Z2Nat.id by lia. reflexivity.
  - rewrite app_length, repeat_length. lia.
Qed.
(** Any two ways of writing n as a product of primes have the same length. *)
Lemma prime_product_perm : forall ps n qs, prime_product n ps -> prime_product n qs -> Permutation ps qs.
Proof.
  induction ps as [|p ps IH]; intros n qs [P1 E1] [P2 E2].
  - destruct qs as [|q qs]; [constructor|]. exfalso. cbn [prod] in E1, E2. inversion P2 as [|? ? Pq _]; subst. assert (D : (q | 1)) by (exists (prod qs); lia). apply Z.divide_1_r_nonneg in D; pose proof (prime_ge2 q Pq); lia.
  - inversion P1 as [|? ? Pp P1']; subst. cbn [prod] in *. destruct (prime_div_prod p qs Pp) as [q [Hq D]]; [rewrite E2; apply Z.divide_factor_l|]. rewrite Forall_forall in P2. apply prime_divides_prime in D; [|exact Pp | apply P2, Hq]. subst q.
    apply in_split in Hq. destruct Hq as [a [b ->]]. apply Permutation_cons_app. apply (IH (prod ps)); [split; [exact P1' | reflexivity]|]. split.
    + apply Forall_forall. intros x Hx. apply P2. apply in_app_or in Hx. apply in_or_app. cbn [In]. tauto.
    + rewrite prod_app in *. cbn [prod] in E2. pose proof (prime_ge2 p Pp). apply (Z.mul_reg_l _ _ p); [lia|]. lia.
Qed.

(** ** Lucky primes *)
Lemma lucky_filter : forall f pf l acc, (forall x, In x l -> x < 2 ^ 64) -> foldM (fun acc p => b <- is_prime64 f pf p ;; Ret (if b : bool then acc ++ [p] else acc)) l acc = Ret (acc ++ filter (z_is_prime64 f) l).
Proof.
  intros f pf l. induction l as [|x l IH]; intros acc H; cbn [foldM filter]; [rewrite app_nil_r; reflexivity|]. rewrite is_prime64_law by (apply H; left; reflexivity). cbn [bind].
  rewrite IH by (intros y Hy; apply H; right; exact Hy). destruct (z_is_prime64 f x); [rewrite <- app_assoc; reflexivity | reflexivity].
Qed.
Lemma sorted_filter : forall (P : Z -> bool) l, StronglySorted Z.lt l -> StronglySorted Z.lt (filter P l).
Proof.
  intros P l S. induction S as [|x l S IH F]; cbn [filter]; [constructor|]. destruct (P x); [|exact IH]. constructor; [exact IH|]. rewrite Forall_forall in *. intros y Hy. apply filter_In in Hy. apply F, Hy.
Qed.

(** ** Small targets *)
(** Below the square of the first prime outside the table, at most one prime factor is not in the table. *)
Lemma small_split : forall n B, 1 <= n < B * B -> 2 <= B -> exists s q, n = s * q /\ 1 <= s /\ (forall p, prime p -> (p | s) -> p < B) /\ (q = 1 \/ prime q).
Proof.
  intros n B Hn HB. destruct (Z.eq_dec n 1) as [->|N1]; [exists 1, 1; split; [reflexivity|]; split; [lia|]; split; [|auto]; intros p Pp D; apply Z.divide_1_r_nonneg in D; pose proof (prime_ge2 p Pp); lia|].
  assert (D : (exists p, prime p /\ (p | n) /\ B <= p) \/ (forall p, prime p -> (p | n) -> p < B)).
  { assert (G : forall k, 0 <= k -> (exists p, prime p /\ (p | n) /\ B <= p /\ p <= k) \/ (forall p, prime p -> (p | n) -> p <= k -> p < B)).
    { apply (natlike_ind (fun k => (exists p, prime p /\ (p | n) /\ B <= p /\ p <= k) \/ (forall p, prime p -> (p | n) -> p <= k -> p < B))).
      - right. intros p Pp _ L. pose proof (prime_ge2 p Pp). lia.
      - intros k Hk [[p H]|H]; [left; exists p; intuition lia|]. destruct (prime_dec (Z.succ k)) as [Pk|Nk]; [destruct (Zdivide_dec (Z.succ k) n) as [Dk|Nk]; [destruct (Z.le_gt_cases B (Z.succ k)) as [L|L]|]|].
        + left. exists (Z.succ k). intuition lia.
        + right. intros p _ _ Hp. lia.
        + right. intros p Pp Dp L. apply H; try assumption. destruct (Z.eq_dec p (Z.succ k)) as [->|]; [contradiction | lia].
        + right. intros p Pp Dp L. apply H; try assumption. destruct (Z.eq_dec p (Z.succ k)) as [->|]; [contradiction | lia]. }
    destruct (G n ltac:(lia)) as [[p H]|H]; [left; exists p; tauto | right; intros p Pp Dp; apply H; try assumption; apply divide_pos_le in Dp; lia]. }
  destruct D as [[p [Pp [[s Es] Hp]]]|H].
  - exists s, p. assert (S1 : 1 <= s) by nia. assert (S2 : s < B) by nia. split; [exact Es|]. split; [exact S1|]. split; [|auto]. intros q Pq Dq. apply divide_pos_le in Dq; lia.
  - exists n, 1. split; [ring|]. split; [lia|]. split; [exact H | auto].
Qed.
