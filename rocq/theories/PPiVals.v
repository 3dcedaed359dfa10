(** * Values of the prime counting function at the points used by the unit tests. *)
From Coq Require Import ZArith Znumtheory List Lia Bool Uint63.
From Verif Require Import Base Spec NT PBase NTPhi PExact.
Import ListNotations.
Local Open Scope Z_scope.
Local Notation V := Uint63.to_Z.

(** the primes among the [len] numbers from [lo] on, [len < 2^k] *)
Fixpoint pint (k : nat) (lo len : int) : int :=
  match k with
  | O => 0%uint63
  | S k' => let h := of_Z (2 ^ Z.of_nat k') in
            if (h <=? len)%uint63 then (pcount k' lo + pint k' (lo + h) (len - h))%uint63 else pint k' lo len
  end.
Lemma pint_spec : forall k lo len, 2 <= V lo -> V lo + V len <= 2 ^ 20 -> V len < 2 ^ Z.of_nat k -> (k <= 21)%nat ->
  V (pint k lo len) = prime_count (V lo + V len - 1) - prime_count (V lo - 1) /\ V (pint k lo len) <= V len.
Proof.
  induction k as [|k IH]; intros lo len Hlo Hb Hl Hk; pose proof (to_Z_bounded len) as Bl; cbn [pint].
  - change (2 ^ Z.of_nat 0) with 1 in Hl. assert (E : V len = 0) by lia. change (V 0) with 0. rewrite E, Z.add_0_r. lia.
  - rewrite Nat2Z.inj_succ, Z.pow_succ_r in Hl by lia. assert (P : 0 < 2 ^ Z.of_nat k <= 2 ^ 20) by (split; [apply Z.pow_pos_nonneg; lia | apply Z.pow_le_mono_r; lia]).
    set (h := of_Z (2 ^ Z.of_nat k)). assert (Eh : V h = 2 ^ Z.of_nat k) by (apply iof; lia).
    destruct (h <=? len)%uint63 eqn:C.
    + apply ileb in C. rewrite Eh in C. destruct (pcount_spec k lo Hlo ltac:(lia)) as [A1 A2].
      assert (E1 : V (lo + h) = V lo + V h) by (rewrite add_spec; apply Z.mod_small; change wB with (2 ^ 63); lia).
      assert (E2 : V (len - h) = V len - V h) by (rewrite sub_spec; apply Z.mod_small; change wB with (2 ^ 63); lia).
      destruct (IH (lo + h)%uint63 (len - h)%uint63 ltac:(lia) ltac:(lia) ltac:(lia) ltac:(lia)) as [B1 B2]. rewrite E1, E2, Eh in *.
      pose proof (to_Z_bounded (pcount k lo)). pose proof (to_Z_bounded (pint k (lo + h) (len - h))).
      assert (Q : V (pcount k lo + pint k (lo + h) (len - h)) = V (pcount k lo) + V (pint k (lo + h) (len - h))) by (rewrite add_spec; apply Z.mod_small; change wB with (2 ^ 63); lia).
      rewrite Q. replace (V lo + 2 ^ Z.of_nat k + (V len - 2 ^ Z.of_nat k) - 1) with (V lo + V len - 1) in B1 by lia. replace (V lo + 2 ^ Z.of_nat k - 1) with (V lo + 2 ^ Z.of_nat k - 1) in B1 by lia. lia.
    + assert (C' : V len < V h) by (apply Z.nle_gt; intros L; apply ileb in L; congruence). rewrite Eh in C'. apply IH; lia.
Qed.
(** a chain of points and the counts between them *)
Fixpoint chain (lo c : Z) (l : list (Z * Z)) : bool :=
  match l with
  | [] => true
  | (x, v) :: r => (2 <=? lo) && (lo <=? x) && (x <? 2 ^ 20) && (to_Z (pint 21 (of_Z lo) (of_Z (x + 1 - lo))) =? v - c) && chain (x + 1) v r
  end.
Lemma chain_spec : forall l lo c, chain lo c l = true -> prime_count (lo - 1) = c -> Forall (fun '(x, v) => prime_count x = v) l.
Proof.
  induction l as [|[x v] l IH]; intros lo c H Hc; [constructor|]. cbn [chain] in H. apply andb_true_iff in H. destruct H as [H H5]. apply andb_true_iff in H. destruct H as [H H4]. apply andb_true_iff in H. destruct H as [H H3]. apply andb_true_iff in H. destruct H as [H1 H2].
  apply Z.leb_le in H1, H2. apply Z.ltb_lt in H3. apply Z.eqb_eq in H4.
  assert (E1 : V (of_Z lo) = lo) by (apply iof; lia). assert (E2 : V (of_Z (x + 1 - lo)) = x + 1 - lo) by (apply iof; lia).
  destruct (pint_spec 21 (of_Z lo) (of_Z (x + 1 - lo))) as [A _]; try (rewrite ?E1, ?E2; change (2 ^ Z.of_nat 21) with (2 ^ 21); lia).
  rewrite E1, E2 in A. replace (lo + (x + 1 - lo) - 1) with x in A by lia. assert (Q : prime_count x = v) by lia.
  constructor; [exact Q|]. apply (IH (x + 1) v H5). replace (x + 1 - 1) with x by lia. exact Q.
Qed.
Definition pi_points : list (Z * Z) := [(8161, 1024); (10000, 1229); (20000, 2262); (38873, 4096); (100000, 9592); (104728, 9999); (104729, 10000); (224736, 19999); (224737, 20000)].
Lemma pi_points_ok : Forall (fun '(x, v) => prime_count x = v) pi_points.
Proof. apply (chain_spec pi_points 2 0); [vm_compute; reflexivity | reflexivity]. Qed.
Lemma pi_million : prime_count 1000000 = 78498.
Proof.
  pose proof primes_upto_1015809 as H. destruct (pint_spec 21 1000001%uint63 15809%uint63 ltac:(vm_compute; discriminate) ltac:(vm_compute; discriminate) ltac:(vm_compute; reflexivity) ltac:(lia)) as [A _].
  assert (E : pint 21 1000001 15809 = 1169%uint63) by (vm_compute; reflexivity). rewrite E in A. change (V 1169) with 1169 in A. change (V 1000001) with 1000001 in A. change (V 15809) with 15809 in A.
  change (1000001 + 15809 - 1) with 1015809 in A. change (1000001 - 1) with 1000000 in A. rewrite H in A. apply Z.sub_cancel_l with 79667. rewrite <- A. reflexivity.
Qed.

(** ** Legendre's formula on primitive integers *)
Inductive ptree := PL (c : int) | PN (mid : int) (l r : ptree).
(** the prime counts of the numbers lo, ..., lo + 2^k - 1, given the count [c] below [lo], and the last count *)
Fixpoint mk (k : nat) (lo c : int) : ptree * int :=
  match k with
  | O => let c' := if (lpf divisors lo =? 0)%uint63 then (c + 1)%uint63 else c in (PL c', c')
  | S k' => let mid := (lo + of_Z (2 ^ Z.of_nat k'))%uint63 in
            let '(l, c1) := mk k' lo c in let '(r, c2) := mk k' mid c1 in (PN mid l r, c2)
  end.
Fixpoint get (t : ptree) (y : int) : int :=
  match t with PL c => c | PN mid l r => if (y <? mid)%uint63 then get l y else get r y end.
Lemma mk_spec : forall k lo c, 2 <= V lo -> V lo + 2 ^ Z.of_nat k <= 2 ^ 20 -> V c = prime_count (V lo - 1) ->
  V (snd (mk k lo c)) = prime_count (V lo + 2 ^ Z.of_nat k - 1) /\
  forall y, V lo <= V y < V lo + 2 ^ Z.of_nat k -> V (get (fst (mk k lo c)) y) = prime_count (V y).
Proof.
  induction k as [|k IH]; intros lo c Hlo Hb Hc; cbn [mk].
  - change (2 ^ Z.of_nat 0) with 1 in *.
    assert (E : V (if (lpf divisors lo =? 0)%uint63 then (c + 1)%uint63 else c) = prime_count (V lo)).
    { pose proof (pc_step (V lo - 1) ltac:(lia)) as S. replace (V lo - 1 + 1) with (V lo) in S by lia. rewrite S, lpf_primeb by lia. destruct (primeb (V lo)); [|lia].
      pose proof (pc_lt_self (V lo - 1) ltac:(lia)). rewrite add_spec, Z.mod_small; [change (V 1) with 1; lia|]. change wB with (2 ^ 63). change (V 1) with 1. pose proof (to_Z_bounded c). lia. }
    cbn [fst snd get]. split; [rewrite E; f_equal; lia|]. intros y Hy. rewrite E. f_equal. lia.
  - rewrite Nat2Z.inj_succ, Z.pow_succ_r in * by lia. assert (P : 0 < 2 ^ Z.of_nat k) by (apply Z.pow_pos_nonneg; lia).
    set (mid := (lo + of_Z (2 ^ Z.of_nat k))%uint63).
    assert (E : V mid = V lo + 2 ^ Z.of_nat k) by (unfold mid; rewrite add_spec, iof by lia; apply Z.mod_small; change wB with (2 ^ 63); lia).
    destruct (IH lo c Hlo ltac:(lia) Hc) as [A1 A2]. destruct (mk k lo c) as [l c1]. cbn [fst snd] in A1, A2.
    destruct (IH mid c1 ltac:(lia) ltac:(lia) ltac:(rewrite A1, E; reflexivity)) as [B1 B2]. destruct (mk k mid c1) as [r c2]. cbn [fst snd] in B1, B2 |- *. split.
    + rewrite B1, E. f_equal. lia.
    + intros y Hy. cbn [get]. destruct (y <? mid)%uint63 eqn:C; [apply iltb in C; apply A2; lia|].
      assert (C' : V mid <= V y) by (apply Z.nlt_ge; intros L; apply iltb in L; congruence). apply B2. lia.
Qed.
(** the table: prime counts of 2, ..., 2^19 + 1 *)
Definition table19 : ptree := fst (mk 19 2 0).
Lemma table19_spec : forall y, 2 <= V y <= 2 ^ 19 -> V (get table19 y) = prime_count (V y).
Proof.
  intros y Hy. apply (mk_spec 19 2 0); [change (V 2) with 2; lia | change (V 2) with 2; change (2 ^ Z.of_nat 19) with (2 ^ 19); lia | reflexivity | change (V 2) with 2; change (2 ^ Z.of_nat 19) with (2 ^ 19); lia].
Qed.
(** the first primes: legendre_phi (2310 q + r) 5 = 480 q + legendre_phi r 5 *)
Lemma phi_period : forall a p P F, nth_prime_is a p -> 0 <= P -> (forall q r, 0 <= q -> 0 <= r -> legendre_phi (q * P + r) (a - 1) = q * F + legendre_phi r (a - 1)) ->
  forall q r, 0 <= q -> 0 <= r -> legendre_phi (q * (P * p) + r) a = q * (F * (p - 1)) + legendre_phi r a.
Proof.
  intros a p P F N HP H q r Hq Hr. pose proof (prime_ge2 p (proj1 N)). assert (0 <= q * (P * p)) by (apply Z.mul_nonneg_nonneg; [lia | apply Z.mul_nonneg_nonneg; lia]). rewrite (phi_rec (q * (P * p) + r) a p ltac:(lia) N), (phi_rec r a p Hr N).
  replace (q * (P * p) + r) with (q * p * P + r) at 1 by ring. rewrite H by (try apply Z.mul_nonneg_nonneg; lia). replace (q * (P * p) + r) with (r + (q * P) * p) by ring. rewrite Z.div_add by lia. rewrite (Z.add_comm (r / p)), H; [ring | lia | apply Z.div_pos; lia].
Qed.
Lemma phi_wheel : forall q r, 0 <= q -> 0 <= r -> legendre_phi (q * 2310 + r) 5 = q * 480 + legendre_phi r 5.
Proof.
  assert (A0 : forall q r, 0 <= q -> 0 <= r -> legendre_phi (q * 1 + r) 0 = q * 1 + legendre_phi r 0) by (intros; rewrite !phi_0; lia).
  assert (A1 := phi_period 1 2 1 1 ltac:(split; [apply primeb_spec|]; vm_compute; reflexivity) ltac:(lia) A0).
  assert (A2 := phi_period 2 3 2 1 ltac:(split; [apply primeb_spec|]; vm_compute; reflexivity) ltac:(lia) A1).
  assert (A3 := phi_period 3 5 6 2 ltac:(split; [apply primeb_spec|]; vm_compute; reflexivity) ltac:(lia) A2).
  assert (A4 := phi_period 4 7 30 8 ltac:(split; [apply primeb_spec|]; vm_compute; reflexivity) ltac:(lia) A3).
  exact (phi_period 5 11 210 48 ltac:(split; [apply primeb_spec|]; vm_compute; reflexivity) ltac:(lia) A4).
Qed.
Lemma phi_one : forall x a p, 1 <= x < p -> nth_prime_is a p -> legendre_phi x a = 1.
Proof.
  intros x a p Hx N. assert (L : prime_count x <= a) by (rewrite <- (proj2 N); apply pc_mono; lia).
  pose proof (phi_mono_a x _ _ L) as M. rewrite (phi_small x (prime_count x)) in M; [|lia | pose proof (pc_nonneg x); lia | intros q Pq Hq; apply pc_mono; pose proof (prime_ge2 q Pq); nia].
  assert (1 <= legendre_phi x a); [|lia]. unfold legendre_phi. replace (Z.to_nat x) with (S (Z.to_nat (x - 1))) by lia. generalize (Z.to_nat (x - 1)) as k. induction k as [|k IH].
  - cbn [count]. change (Z.of_nat 1) with 1. assert (E : coprime_to_first a 1 = true) by reflexivity. rewrite E. lia.
  - rewrite count_S. destruct (coprime_to_first a (Z.of_nat (S (S k)))); lia.
Qed.
(** [l]: the a-th prime, the (a-1)-th, ... *)
Fixpoint listed (t : ptree) (l : list int) (a : int) : bool :=
  match l with
  | [] => (a =? 0)%uint63
  | p :: l' => (2 <? p)%uint63 && (p <=? 524288)%uint63 && (get t p =? a)%uint63 && (get t (p - 1) =? a - 1)%uint63 && listed t l' (a - 1)
               || (p =? 2)%uint63 && (a =? 1)%uint63 && (match l' with [] => true | _ => false end)
  end.
(** Legendre's phi: numbers up to [x] that are not divisible by a prime in [l] *)
Fixpoint leg0 (l : list int) (x : int) : int :=
  match l with [] => x | p :: l' => (leg0 l' x - leg0 l' (x / p))%uint63 end.
Fixpoint wheel (k : nat) (lo : int) : ptree :=
  match k with
  | O => PL (leg0 [11; 7; 5; 3; 2]%uint63 lo)
  | S k' => let mid := (lo + of_Z (2 ^ Z.of_nat k'))%uint63 in PN mid (wheel k' lo) (wheel k' mid)
  end.
Fixpoint leg (t w : ptree) (l : list int) (a x : int) : int :=
  if (a =? 5)%uint63 then (x / 2310 * 480 + get w (x mod 2310))%uint63 else
  match l with
  | [] => x
  | p :: l' => if (x <? p)%uint63 then (if (x =? 0)%uint63 then 0 else 1)%uint63
               else if (x <=? 524288)%uint63 && (x <? p * p)%uint63 then (get t x + 1 - a)%uint63
               else (leg t w l' (a - 1) x - leg t w l' (a - 1) (x / p))%uint63
  end.
Lemma leg0_spec : forall x, V x < 2 ^ 60 -> V (leg0 [11; 7; 5; 3; 2]%uint63 x) = legendre_phi (V x) 5.
Proof.
  assert (S : forall p a l, V p = a -> forall n, nth_prime_is n a -> (forall x, V x < 2 ^ 60 -> V (leg0 l x) = legendre_phi (V x) (n - 1)) ->
    forall x, V x < 2 ^ 60 -> V (leg0 (p :: l) x) = legendre_phi (V x) n).
  { intros p a l <- n N H x Hx. pose proof (prime_ge2 _ (proj1 N)). pose proof (to_Z_bounded x) as Bx. cbn [leg0]. pose proof (Z.div_le_upper_bound (V x) (V p) (V x) ltac:(lia) ltac:(nia)).
    rewrite sub_spec, !H by (rewrite ?div_spec; lia). rewrite div_spec, (phi_rec (V x) n (V p) ltac:(lia) N).
    pose proof (phi_nonneg (V x) n) as Q. rewrite (phi_rec (V x) n (V p) ltac:(lia) N) in Q. pose proof (phi_le (V x) (n - 1) ltac:(lia)). pose proof (phi_nonneg (V x / V p) (n - 1)).
    apply Z.mod_small. change wB with (2 ^ 63). lia. }
  apply (S 11%uint63 11 _ eq_refl 5); [split; [apply primeb_spec|]; vm_compute; reflexivity|]. change (5 - 1) with 4.
  apply (S 7%uint63 7 _ eq_refl 4); [split; [apply primeb_spec|]; vm_compute; reflexivity|]. change (4 - 1) with 3.
  apply (S 5%uint63 5 _ eq_refl 3); [split; [apply primeb_spec|]; vm_compute; reflexivity|]. change (3 - 1) with 2.
  apply (S 3%uint63 3 _ eq_refl 2); [split; [apply primeb_spec|]; vm_compute; reflexivity|]. change (2 - 1) with 1.
  apply (S 2%uint63 2 _ eq_refl 1); [split; [apply primeb_spec|]; vm_compute; reflexivity|]. change (1 - 1) with 0.
  intros x Hx. pose proof (to_Z_bounded x). cbn [leg0]. rewrite phi_0 by lia. reflexivity.
Qed.
Lemma wheel_get : forall k lo, V lo + 2 ^ Z.of_nat k <= 2 ^ 20 -> forall y, V lo <= V y < V lo + 2 ^ Z.of_nat k -> V (get (wheel k lo) y) = legendre_phi (V y) 5.
Proof.
  induction k as [|k IH]; intros lo Hb y Hy; pose proof (to_Z_bounded lo) as Bl; cbn [wheel get].
  - change (2 ^ Z.of_nat 0) with 1 in *. rewrite leg0_spec by lia. f_equal. lia.
  - rewrite Nat2Z.inj_succ, Z.pow_succ_r in * by lia. assert (P : 0 < 2 ^ Z.of_nat k) by (apply Z.pow_pos_nonneg; lia).
    set (mid := (lo + of_Z (2 ^ Z.of_nat k))%uint63).
    assert (E : V mid = V lo + 2 ^ Z.of_nat k) by (unfold mid; rewrite add_spec, iof by lia; apply Z.mod_small; change wB with (2 ^ 63); lia).
    destruct (y <? mid)%uint63 eqn:C; [apply iltb in C; apply IH; lia|].
    assert (C' : V mid <= V y) by (apply Z.nlt_ge; intros L; apply iltb in L; congruence). apply IH; lia.
Qed.
Definition wheel12 : ptree := wheel 12 0.
Lemma wheel12_spec : forall y, V y < 2310 -> V (get wheel12 y) = legendre_phi (V y) 5.
Proof. intros y Hy. pose proof (to_Z_bounded y). apply wheel_get; change (V 0) with 0; change (2 ^ Z.of_nat 12) with 4096; lia. Qed.
Lemma listed_head : forall p l a, listed table19 (p :: l) a = true -> V a < 2 ^ 31 -> nth_prime_is (V a) (V p) /\ 2 <= V p <= 2 ^ 19 /\ 1 <= V a /\ listed table19 l (a - 1) = true.
Proof.
  intros p l a H Ha. cbn [listed] in H. apply orb_true_iff in H. destruct H as [H|H].
  - apply andb_true_iff in H. destruct H as [H H5]. apply andb_true_iff in H. destruct H as [H H4]. apply andb_true_iff in H. destruct H as [H H3]. apply andb_true_iff in H. destruct H as [H1 H2].
    apply iltb in H1. apply ileb in H2. apply ieqb in H3, H4. change (V 2) with 2 in H1. change (V 524288) with 524288 in H2.
    assert (Ep : V (p - 1) = V p - 1) by (rewrite sub_spec; change (V 1) with 1; apply Z.mod_small; change wB with (2 ^ 63); lia).
    rewrite table19_spec in H3 by lia. rewrite table19_spec in H4 by lia. rewrite Ep in H4.
    pose proof (pc_step (V p - 1) ltac:(lia)) as S. replace (V p - 1 + 1) with (V p) in S by lia.
    assert (A1 : 1 <= V a). { destruct (Z.eq_dec (V a) 0) as [Z0|]; [|pose proof (to_Z_bounded a); lia]. exfalso. pose proof (pc_mono 2 (V p) ltac:(lia)). rewrite pc_2 in *. lia. }
    assert (Ea : V (a - 1) = V a - 1) by (rewrite sub_spec; change (V 1) with 1; apply Z.mod_small; change wB with (2 ^ 63); lia). rewrite Ea in H4.
    split; [|split; [lia | split; [lia | exact H5]]]. split; [|exact H3]. apply primeb_spec. destruct (primeb (V p)); [reflexivity | lia].
  - apply andb_true_iff in H. destruct H as [H H3]. apply andb_true_iff in H. destruct H as [H1 H2]. apply ieqb in H1, H2. change (V 2) with 2 in H1. change (V 1) with 1 in H2. destruct l; [|discriminate].
    rewrite H1, H2. split; [split; [exact prime_2 | exact pc_2]|]. split; [lia|]. split; [lia|]. cbn [listed]. apply ieqb. rewrite sub_spec, H2. reflexivity.
Qed.
Lemma leg_5 : forall x, V x < 2 ^ 60 -> V (x / 2310 * 480 + get wheel12 (x mod 2310)) = legendre_phi (V x) 5.
Proof.
  intros x Hx. pose proof (to_Z_bounded x) as Bx. pose proof (Z.mod_pos_bound (V x) 2310 ltac:(lia)) as M. pose proof (Z_div_mod_eq_full (V x) 2310) as D.
  assert (Em : V (x mod 2310) = V x mod 2310) by (rewrite mod_spec; reflexivity).
  assert (Eg : V (get wheel12 (x mod 2310)) = legendre_phi (V x mod 2310) 5) by (rewrite wheel12_spec, Em; [reflexivity | lia]).
  pose proof (phi_le (V x mod 2310) 5 ltac:(lia)). pose proof (phi_nonneg (V x mod 2310) 5).
  assert (Ed : V (x / 2310) = V x / 2310) by (rewrite div_spec; reflexivity).
  assert (Q : 0 <= V x / 2310) by (apply Z.div_pos; lia).
  assert (E4 : V (x / 2310 * 480) = V x / 2310 * 480) by (rewrite mul_spec, Ed; change (V 480) with 480; apply Z.mod_small; change wB with (2 ^ 63); lia).
  rewrite add_spec, E4, Eg, Z.mod_small by (change wB with (2 ^ 63); lia). rewrite <- phi_wheel by lia. f_equal. lia.
Qed.
Lemma leg_spec : forall l a x, listed table19 l a = true -> V a < 2 ^ 31 -> V x < 2 ^ 60 -> V (leg table19 wheel12 l a x) = legendre_phi (V x) (V a).
Proof.
  induction l as [|p l IH]; intros a x H Ha Hx; pose proof (to_Z_bounded x) as Bx; cbn [leg]; (destruct (a =? 5)%uint63 eqn:A5; [apply ieqb in A5; rewrite A5; apply leg_5; exact Hx|]).
  - cbn [listed] in H. apply ieqb in H. rewrite H. change (V 0) with 0. rewrite phi_0 by lia. reflexivity.
  - destruct (listed_head p l a H Ha) as [N [Hp [Ha1 Hl]]].
    assert (Ea : V (a - 1) = V a - 1) by (rewrite sub_spec; change (V 1) with 1; apply Z.mod_small; change wB with (2 ^ 63); lia).
    destruct (x <? p)%uint63 eqn:C0.
    { apply iltb in C0. destruct (x =? 0)%uint63 eqn:X0; [apply ieqb in X0; rewrite X0; reflexivity|]. apply ieqbf in X0. change (V 0) with 0 in X0. change (V 1) with 1. symmetry. apply (phi_one _ _ (V p)); [lia | exact N]. }
    assert (C3 : V p <= V x) by (apply Z.nlt_ge; intros L; apply iltb in L; congruence).
    destruct ((x <=? 524288)%uint63 && (x <? p * p)%uint63) eqn:C.
    + apply andb_true_iff in C. destruct C as [C2 C1]. apply iltb in C1. apply ileb in C2. rewrite imul in C1 by lia. change (V 524288) with 524288 in C2.
      assert (L : V a <= prime_count (V x)) by (rewrite <- (proj2 N); apply pc_mono; lia). pose proof (pc_lt_self (V x) ltac:(lia)).
      assert (E1 : V (get table19 x) = prime_count (V x)) by (apply table19_spec; lia).
      assert (E2 : V (get table19 x + 1) = prime_count (V x) + 1) by (rewrite add_spec, E1; change (V 1) with 1; apply Z.mod_small; change wB with (2 ^ 63); lia).
      rewrite sub_spec, E2, Z.mod_small by (change wB with (2 ^ 63); lia). rewrite (phi_small (V x) (V a)); [lia | lia | lia |].
      intros q Pq Hq. rewrite <- (proj2 N). apply pc_mono. nia.
    + rewrite sub_spec. rewrite !IH; try assumption; try (rewrite Ea; lia); [|rewrite div_spec; pose proof (Z.div_le_upper_bound (V x) (V p) (V x) ltac:(lia) ltac:(nia)); lia].
      rewrite Ea, div_spec. rewrite (phi_rec (V x) (V a) (V p) ltac:(lia) N).
      pose proof (phi_nonneg (V x) (V a)) as Q. rewrite (phi_rec (V x) (V a) (V p) ltac:(lia) N) in Q. pose proof (phi_le (V x) (V a - 1) ltac:(lia)). pose proof (phi_nonneg (V x / V p) (V a - 1)).
      apply Z.mod_small. change wB with (2 ^ 63). lia.
Qed.
Lemma legendre_count : forall x l b, listed table19 l b = true -> V b < 2 ^ 31 -> V x < 2 ^ 60 -> 2 <= V x -> 2 <= Z.sqrt (V x) <= 2 ^ 19 ->
  get table19 (of_Z (Z.sqrt (V x))) = b -> prime_count (V x) = V (leg table19 wheel12 l b x) + V b - 1.
Proof.
  intros x l b Hl Hb Hx H2 Hs Hg. assert (E : V b = prime_count (Z.sqrt (V x))). { rewrite <- Hg, table19_spec; rewrite iof; lia. }
  rewrite leg_spec by assumption. pose proof (S_end (V x) (V b) H2 E) as S. unfold S_ in S. rewrite tri_end in S. lia.
Qed.
(** the primes among 2, ..., k + 1, the greatest first *)
Fixpoint below (k : nat) (y : int) (acc : list int) : list int :=
  match k with O => acc | S k' => below k' (y + 1)%uint63 (if (lpf divisors y =? 0)%uint63 then y :: acc else acc) end.
(** drop the primes above the square root of [x] and count *)
Fixpoint root (l : list int) (b x : int) : list int * int :=
  match l with [] => (l, b) | p :: l' => if (x <? p * p)%uint63 then root l' (b - 1)%uint63 x else (l, b) end.
Definition at_point (t w : ptree) (l : list int) (b : int) (xv : Z * Z) : bool :=
  let '(x, v) := xv in let '(l', b') := root l b (of_Z x) in
  (2 <=? x) && (x <? 2 ^ 38) && (2 <=? Z.sqrt x) && (get t (of_Z (Z.sqrt x)) =? b')%uint63 && (to_Z b' <? 2 ^ 31) && (to_Z (leg t w l' b' (of_Z x)) + to_Z b' - 1 =? v).
Definition at_points (k : nat) (b : int) (pts : list (Z * Z)) : bool :=
  let t := table19 in let w := wheel12 in let l := below k 2 [] in (to_Z b <? 2 ^ 31) && listed t l b && forallb (at_point t w l b) pts.
Lemma root_listed : forall l b x, listed table19 l b = true -> V b < 2 ^ 31 -> listed table19 (fst (root l b x)) (snd (root l b x)) = true.
Proof.
  induction l as [|p l IH]; intros b x H Hb; cbn [root]; [exact H|]. destruct (x <? p * p)%uint63; [|exact H]. destruct (listed_head p l b H Hb) as [_ [_ [B Hl]]]. apply IH; [exact Hl|].
  rewrite sub_spec. change (V 1) with 1. rewrite Z.mod_small; [lia|]. change wB with (2 ^ 63). lia.
Qed.
Lemma at_points_spec : forall k b pts, at_points k b pts = true -> Forall (fun '(x, v) => prime_count x = v) pts.
Proof.
  intros k b pts H. unfold at_points in H. cbv zeta in H. apply andb_true_iff in H. destruct H as [H F]. apply andb_true_iff in H. destruct H as [Hb L]. apply Z.ltb_lt in Hb.
  apply Forall_forall. intros [x v] Hin. rewrite forallb_forall in F. specialize (F _ Hin). unfold at_point in F. pose proof (root_listed _ b (of_Z x) L Hb) as L'. destruct (root (below k 2 []) b (of_Z x)) as [l' b']. cbn [fst snd] in L'.
  apply andb_true_iff in F. destruct F as [F F6]. apply andb_true_iff in F. destruct F as [F F5]. apply andb_true_iff in F. destruct F as [F F4]. apply andb_true_iff in F. destruct F as [F F3]. apply andb_true_iff in F. destruct F as [F1 F2].
  apply Z.leb_le in F1, F3. apply Z.ltb_lt in F2, F5. apply Z.eqb_eq in F6. apply eqb_correct in F4.
  assert (E : V (of_Z x) = x) by (apply iof; lia). rewrite <- F6. rewrite <- E at 1. apply legendre_count; rewrite ?E; try assumption; try lia.
  split; [exact F3|]. apply Z.lt_succ_r. apply Z.sqrt_lt_square; lia.
Qed.
(** the counts asked for by the unit tests; 4294000000 ends the range of C76, 12000000 that of C50 and C51, and 2953652287 is the witness of C78 *)
Definition pi_points2 : list (Z * Z) :=
  [(10000000, 664579); (100000000, 5761455); (1299709, 100000); (1299708, 99999); (15485863, 1000000); (15485862, 999999); (179424673, 10000000); (179424672, 9999999);
   (1298616, 99923); (1300804, 100079); (15480136, 999661); (15486603, 1000044); (179418666, 9999677); (179438847, 10000751); (4294000000, 203236859);
   (12000000, 788060); (2953652287, 142325757)].
Lemma pi_points2_ok : Forall (fun '(x, v) => prime_count x = v) pi_points2.
Proof. apply (at_points_spec (Z.to_nat 65536) 6543). vm_compute. reflexivity. Qed.
