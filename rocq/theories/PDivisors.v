(** * Proofs about the divisor list. *)
From Coq Require Import ZArith Znumtheory Zpow_facts List Lia Bool Sorted.
From Verif Require Import Base Spec SpecEx Ext NT NTPock PBase MInteger MExamples.
Import ListNotations.
Local Open Scope Z_scope.

(** ** The computation without overflow *)
Definition dnew (l : list Z) (p : Z) (is : list Z) : list Z := flat_map (fun i => map (fun g => g * p ^ i) l) is.
Definition dstep (l : list Z) (pe : Z * Z) : list Z := l ++ dnew l (fst pe) (range_step 1 (snd pe + 1) 1).
Fixpoint tau (m : list (Z * Z)) : Z := match m with [] => 1 | (_, e) :: m' => (e + 1) * tau m' end.
Definition good (m : list (Z * Z)) : Prop := Forall (fun pe => 2 <= fst pe /\ 1 <= snd pe) m.

Lemma mapM_ok : forall A B (g : A -> res B) (h : A -> B) l, (forall a, In a l -> g a = Ret (h a)) -> mapM g l = Ret (map h l).
Proof.
  induction l as [|a l IH]; intros H; cbn [mapM map]; [reflexivity|]. rewrite H by (left; reflexivity). cbn [bind]. rewrite IH by (intros b Hb; apply H; right; exact Hb). reflexivity.
Qed.
Lemma pow_le_exp : forall p i e, 1 <= p -> 0 <= i <= e -> 1 <= p ^ i <= p ^ e.
Proof. intros p i e Hp Hi. split; [pose proof (Z.pow_pos_nonneg p i ltac:(lia) ltac:(lia)); lia | apply Z.pow_le_mono_r; lia]. Qed.
Lemma exp_bound : forall p e B, 2 <= p -> 1 <= e -> p ^ e < 2 ^ B -> 0 <= B -> e < B.
Proof.
  intros p e B Hp He H HB. apply (Z.pow_lt_mono_r_iff 2); [lia | lia|]. eapply Z.le_lt_trans; [|exact H]. apply Z.pow_le_mono_l. lia.
Qed.
Lemma range1_in : forall e i, 0 <= e -> (In i (range_step 1 (e + 1) 1) <-> 1 <= i <= e).
Proof.
  intros e i He. rewrite range_step_in by lia. split.
  - intros [k [Hk E]]. lia.
  - intros H. exists (i - 1). lia.
Qed.
Lemma range1_length : forall e, 0 <= e -> Z.of_nat (length (range_step 1 (e + 1) 1)) = e.
Proof. intros e He. unfold range_step. rewrite range_from_length. replace (e + 1 - 1 + 1 - 1) with e by lia. rewrite Z.div_1_r. lia. Qed.
Lemma dnew_length : forall l p is, length (dnew l p is) = (length is * length l)%nat.
Proof. intros l p is. unfold dnew. induction is as [|i is IH]; cbn [flat_map length]; [reflexivity|]. rewrite app_length, map_length, IH. reflexivity. Qed.
Lemma dstep_length : forall l p e, 0 <= e -> Z.of_nat (length (dstep l (p, e))) = Z.of_nat (length l) * (e + 1).
Proof. intros l p e He. unfold dstep. cbn [fst snd]. rewrite app_length, dnew_length, Nat2Z.inj_add, Nat2Z.inj_mul, range1_length by exact He. ring. Qed.
Lemma dstep_in : forall l p e d, 0 <= e -> (In d (dstep l (p, e)) <-> exists g i, In g l /\ 0 <= i <= e /\ d = g * p ^ i).
Proof.
  intros l p e d He. unfold dstep, dnew. cbn [fst snd]. rewrite in_app_iff, in_flat_map. split.
  - intros [H|[i [Hi H]]].
    + exists d, 0. rewrite Z.pow_0_r. split; [exact H|]. split; lia.
    + apply range1_in in Hi; [|exact He]. apply in_map_iff in H. destruct H as [g [<- Hg]]. exists g, i. split; [exact Hg|]. split; [lia | reflexivity].
  - intros [g [i [Hg [Hi ->]]]]. destruct (Z.eq_dec i 0) as [->|N]; [left; rewrite Z.pow_0_r, Z.mul_1_r; exact Hg | right]. exists i. split; [apply range1_in; lia|]. apply in_map_iff. exists g. auto.
Qed.

Lemma divisors_step_ok : forall pf l p e N, 2 <= p -> 1 <= e -> (forall g, In g l -> 1 <= g <= N) -> 1 <= N -> N * p ^ e < 2 ^ 64 -> Z.of_nat (length l) * (e + 1) < 2 ^ 33 ->
  divisors_step pf l (p, e) = Ret (dstep l (p, e)) /\ (forall d, In d (dstep l (p, e)) -> 1 <= d <= N * p ^ e).
Proof.
  intros pf l p e N Hp He Hl HN HB HL.
  assert (Hpe : forall i, 0 <= i <= e -> 1 <= p ^ i <= p ^ e) by (intros i Hi; apply pow_le_exp; lia).
  assert (Pe : p ^ e < 2 ^ 64) by (specialize (Hpe e ltac:(lia)); nia).
  assert (E64 : e < 64) by (apply (exp_bound p e 64); lia).
  assert (Hm : forall g i, In g l -> 0 <= i <= e -> 1 <= g * p ^ i <= N * p ^ e).
  { intros g i Hg Hi. specialize (Hl g Hg). specialize (Hpe i Hi). split; [apply (Z.mul_le_mono_nonneg 1 g 1 (p ^ i)); lia | apply Z.mul_le_mono_nonneg; lia]. }
  split.
  - unfold divisors_step, dstep. cbn [fst snd]. rewrite mul_ok by (rngs; nia). cbn [bind]. unfold with_capacity. replace (8 * (Z.of_nat (length l) * e) <? 2 ^ 63) with true by (symmetry; apply Z.ltb_lt; nia). cbn [bind].
    rewrite (Z.mod_small e) by lia. rewrite add_ok by (rngs; lia). cbn [bind].
    assert (G : forall is acc, (forall i, In i is -> 0 <= i <= e) -> foldM (fun acc i => more <- mapM (fun g => q <- pow64 pf p i ;; mul_ pf u64 g q) l ;; Ret (acc ++ more)) is acc = Ret (acc ++ dnew l p is)).
    { induction is as [|i is IH]; intros acc Hi; cbn [foldM]; [unfold dnew; cbn [flat_map]; rewrite app_nil_r; reflexivity|].
      rewrite (mapM_ok _ _ _ (fun g => g * p ^ i)).
      - cbn [bind]. rewrite IH by (intros j Hj; apply Hi; right; exact Hj). unfold dnew. cbn [flat_map]. rewrite app_assoc. reflexivity.
      - intros g Hg. specialize (Hi i (or_introl eq_refl)). specialize (Hm g i Hg Hi). specialize (Hpe i Hi). unfold pow64. rewrite wrapz_ok by (rngs; lia). cbn [bind]. apply mul_ok. rngs. lia. }
    rewrite G; [reflexivity|]. intros i Hi. apply range1_in in Hi; lia.
  - intros d Hd. apply dstep_in in Hd; [|lia]. destruct Hd as [g [i [Hg [Hi ->]]]]. apply Hm; assumption.
Qed.
Lemma tau_pos : forall m, good m -> 1 <= tau m.
Proof. induction m as [|[p e] m IH]; intros G; cbn [tau]; [lia|]. inversion G as [|? ? [A B] G']; subst. cbn [fst snd] in *. specialize (IH G'). nia. Qed.
Lemma prod_pos : forall m, good m -> 1 <= prod_powers m.
Proof. induction m as [|[p e] m IH]; intros G; cbn [prod_powers]; [lia|]. inversion G as [|? ? [A B] G']; subst. cbn [fst snd] in *. specialize (IH G'). pose proof (Z.pow_pos_nonneg p e ltac:(lia) ltac:(lia)). nia. Qed.
Lemma divisors_fold : forall pf m l N, good m -> (forall g, In g l -> 1 <= g <= N) -> 1 <= N -> N * prod_powers m < 2 ^ 64 -> Z.of_nat (length l) * tau m < 2 ^ 33 ->
  foldM (divisors_step pf) m l = Ret (fold_left dstep m l).
Proof.
  induction m as [|[p e] m IH]; intros l N G Hl HN HB HL; cbn [foldM fold_left]; [reflexivity|]. cbn [prod_powers tau] in *. inversion G as [|? ? [A B] G']; subst. cbn [fst snd] in *.
  pose proof (prod_pos m G') as Pm. pose proof (tau_pos m G') as Tm. pose proof (Z.pow_pos_nonneg p e ltac:(lia) ltac:(lia)) as Pp.
  assert (B1 : 1 <= N * p ^ e) by nia. assert (B2 : N * p ^ e <= N * (p ^ e * prod_powers m)) by nia.
  assert (B3 : 0 <= Z.of_nat (length l) * (e + 1) <= Z.of_nat (length l) * ((e + 1) * tau m)) by nia.
  destruct (divisors_step_ok pf l p e N A B Hl HN ltac:(lia) ltac:(lia)) as [E D]. rewrite E. cbn [bind]. apply (IH _ (N * p ^ e)); [exact G' | exact D | exact B1 | rewrite <- Z.mul_assoc; exact HB|].
  rewrite dstep_length by lia. rewrite <- Z.mul_assoc. exact HL.
Qed.

(** ** The number of divisors is at most sqrt(3 n), so the capacities asked for are small *)
Lemma pow2_ind : forall (P : Z -> Prop), P 1 -> (forall e, 1 <= e -> P e -> P (e + 1)) -> forall e, 1 <= e -> P e.
Proof.
  intros P H1 HS e He. replace e with (1 + Z.of_nat (Z.to_nat (e - 1))) by lia. induction (Z.to_nat (e - 1)) as [|k IH]; [exact H1|]. replace (1 + Z.of_nat (S k)) with (1 + Z.of_nat k + 1) by lia. apply HS; [lia | exact IH].
Qed.
Lemma tau4 : forall e, 1 <= e -> (e + 1) * (e + 1) <= 4 ^ e.
Proof. apply pow2_ind; [reflexivity|]. intros e He IH. rewrite Z.pow_add_r by lia. rewrite Z.pow_1_r. nia. Qed.
Lemma tau3 : forall e, 1 <= e -> 3 * ((e + 1) * (e + 1)) <= 4 * 3 ^ e.
Proof. apply pow2_ind; [discriminate|]. intros e He IH. rewrite Z.pow_add_r by lia. rewrite Z.pow_1_r. nia. Qed.
Lemma tau2 : forall e, 1 <= e -> 4 * ((e + 1) * (e + 1)) <= 9 * 2 ^ e.
Proof.
  intros e He. destruct (Z.eq_dec e 1) as [->|N]; [discriminate|]. replace e with ((e - 1) + 1) by lia. assert (H : 1 <= e - 1) by lia. revert H. generalize (e - 1). clear. intros e He. revert e He.
  apply pow2_ind; [discriminate|]. intros e He IH. rewrite (Z.pow_add_r 2 (e + 1)) by lia. rewrite Z.pow_1_r. nia.
Qed.
Lemma good_tail : forall pe m, good (pe :: m) -> good m.
Proof. intros pe m H. inversion H; assumption. Qed.
Lemma tau_sq4 : forall m, good m -> Forall (fun pe => 4 <= fst pe) m -> tau m * tau m <= prod_powers m.
Proof.
  induction m as [|[p e] m IH]; intros G F; cbn [tau prod_powers]; [lia|]. inversion G as [|? ? [A B] G']; subst. inversion F as [|? ? C F']; subst. cbn [fst snd] in *. specialize (IH G' F'). pose proof (tau4 e B) as T.
  assert (T' : (e + 1) * (e + 1) <= p ^ e) by (eapply Z.le_trans; [exact T | apply Z.pow_le_mono_l; lia]). replace ((e + 1) * tau m * ((e + 1) * tau m)) with (((e + 1) * (e + 1)) * (tau m * tau m)) by ring. apply Z.mul_le_mono_nonneg; nia.
Qed.
Lemma sorted_above : forall (m : list (Z * Z)) p e, StronglySorted Z.lt (map fst ((p, e) :: m)) -> Forall (fun pe => p + 1 <= fst pe) m.
Proof. intros m p e S. cbn [map fst] in S. inversion S as [|? ? _ F]; subst. apply Forall_forall. intros pe H. rewrite Forall_forall in F. specialize (F _ (in_map fst _ _ H)). lia. Qed.
Lemma tau_sq3 : forall m, good m -> StronglySorted Z.lt (map fst m) -> Forall (fun pe => 3 <= fst pe) m -> 3 * (tau m * tau m) <= 4 * prod_powers m.
Proof.
  intros [|[p e] m] G S F; [discriminate|]. inversion G as [|? ? [A B] G']; subst. inversion F as [|? ? C F']; subst. cbn [fst snd] in *. pose proof (sorted_above m p e S) as F4.
  assert (F5 : Forall (fun pe => 4 <= fst pe) m) by (eapply Forall_impl; [|exact F4]; cbn beta; intros pe H; lia).
  destruct (Z.eq_dec p 3) as [->|N].
  - pose proof (tau_sq4 m G' F5) as T. pose proof (tau3 e B). pose proof (prod_pos m G'). cbn [tau prod_powers]. replace (3 * ((e + 1) * tau m * ((e + 1) * tau m))) with ((3 * ((e + 1) * (e + 1))) * (tau m * tau m)) by ring.
    replace (4 * (3 ^ e * prod_powers m)) with ((4 * 3 ^ e) * prod_powers m) by ring. apply Z.mul_le_mono_nonneg; nia.
  - assert (F6 : Forall (fun pe => 4 <= fst pe) ((p, e) :: m)) by (constructor; [cbn [fst]; lia | exact F5]). pose proof (tau_sq4 _ G F6). pose proof (prod_pos _ G). lia.
Qed.
Lemma tau_sq : forall m, good m -> StronglySorted Z.lt (map fst m) -> tau m * tau m <= 3 * prod_powers m.
Proof.
  intros [|[p e] m] G S; [discriminate|]. inversion G as [|? ? [A B] G']; subst. cbn [fst snd] in *. pose proof (sorted_above m p e S) as F4.
  assert (F5 : Forall (fun pe => 3 <= fst pe) m) by (eapply Forall_impl; [|exact F4]; cbn beta; intros pe H; lia).
  destruct (Z.eq_dec p 2) as [->|N].
  - assert (S' : StronglySorted Z.lt (map fst m)) by (inversion S; assumption). pose proof (tau_sq3 m G' S' F5) as T. pose proof (tau2 e B) as T2. pose proof (prod_pos m G'). cbn [tau prod_powers].
    assert (T3 : (4 * ((e + 1) * (e + 1))) * (3 * (tau m * tau m)) <= (9 * 2 ^ e) * (4 * prod_powers m)) by (apply Z.mul_le_mono_nonneg; nia).
    replace ((e + 1) * tau m * ((e + 1) * tau m)) with ((e + 1) * (e + 1) * (tau m * tau m)) by ring. nia.
  - assert (F6 : Forall (fun pe => 3 <= fst pe) ((p, e) :: m)) by (constructor; [cbn [fst]; lia | exact F5]). pose proof (tau_sq3 _ G S F6). pose proof (prod_pos _ G). lia.
Qed.
Lemma tau_bound : forall m, good m -> StronglySorted Z.lt (map fst m) -> prod_powers m < 2 ^ 64 -> tau m < 2 ^ 33.
Proof. intros m G S H. pose proof (tau_sq m G S). pose proof (tau_pos m G). nia. Qed.
Lemma capacity_ok : forall pf m acc, good m -> 1 <= acc -> acc * tau m < 2 ^ 33 ->
  foldM (fun acc pe => e1 <- add_ pf usize (snd pe) 1 ;; mul_ pf usize acc e1) m acc = Ret (acc * tau m).
Proof.
  induction m as [|[p e] m IH]; intros acc G Ha HB; cbn [foldM tau] in *; [rewrite Z.mul_1_r; reflexivity|]. inversion G as [|? ? [A B] G']; subst. cbn [fst snd] in *. pose proof (tau_pos m G') as T.
  assert (E1 : acc * (e + 1) <= acc * ((e + 1) * tau m)) by nia. assert (E2 : e + 1 <= acc * (e + 1)) by nia.
  rewrite add_ok by (rngs; lia). cbn [bind]. rewrite mul_ok by (rngs; nia). cbn [bind]. rewrite IH by (try assumption; nia). f_equal. ring.
Qed.

(** ** The list is complete and without repetition when the keys are primes *)
Lemma prime_val : forall p d, prime p -> 1 <= d -> exists i g, 0 <= i /\ 1 <= g /\ d = g * p ^ i /\ ~ (p | g).
Proof.
  intros p d Pp. pose proof (prime_ge2 p Pp). intros Hd. assert (G : forall k d, (Z.to_nat d <= k)%nat -> 1 <= d -> exists i g, 0 <= i /\ 1 <= g /\ d = g * p ^ i /\ ~ (p | g)); [|apply (G (Z.to_nat d) d); lia].
  clear d Hd. induction k as [|k IH]; intros d Hk Hd; [lia|]. destruct (Zdivide_dec p d) as [[c Ec]|N].
  - assert (C1 : 1 <= c < d) by nia. destruct (IH c ltac:(lia) ltac:(lia)) as [i [g [Hi [Hg [E Ng]]]]]. exists (i + 1), g. split; [lia|]. split; [exact Hg|]. split; [|exact Ng]. rewrite Z.pow_add_r, Z.pow_1_r by lia. rewrite Ec, E. ring.
  - exists 0, d. rewrite Z.pow_0_r. split; [lia|]. split; [lia|]. split; [ring | exact N].
Qed.
Lemma val_unique : forall p g h i j, prime p -> ~ (p | g) -> ~ (p | h) -> 0 <= i -> 0 <= j -> g * p ^ i = h * p ^ j -> i = j /\ g = h.
Proof.
  intros p g h i j Pp Ng Nh Hi Hj E. pose proof (prime_ge2 p Pp) as P2.
  assert (G : forall g h i j, ~ (p | g) -> 0 <= i -> 0 <= j -> g * p ^ i = h * p ^ j -> i < j -> False).
  { clear - P2. intros g h i j Ng Hi Hj E L. apply Ng. replace j with (i + (1 + (j - i - 1))) in E by lia. rewrite (Z.pow_add_r p i), Z.pow_add_r, Z.pow_1_r in E by lia.
    exists (h * p ^ (j - i - 1)). pose proof (Z.pow_pos_nonneg p i ltac:(lia) Hi). apply (Z.mul_reg_r _ _ (p ^ i)); [lia|]. rewrite E. ring. }
  assert (i = j). { destruct (Z.lt_trichotomy i j) as [L|[L|L]]; [exfalso; eapply (G g h i j); eassumption | exact L | exfalso; eapply (G h g j i); try eassumption; symmetry; exact E]. }
  subst j. split; [reflexivity|]. pose proof (Z.pow_pos_nonneg p i ltac:(lia) Hi). apply (Z.mul_reg_r _ _ (p ^ i)); [lia | exact E].
Qed.
Definition lists_divisors (l : list Z) (n : Z) : Prop := NoDup l /\ forall d, In d l <-> 1 <= d /\ (d | n).
Lemma dnew_nodup : forall l p is, prime p -> NoDup l -> NoDup is -> (forall g, In g l -> ~ (p | g)) -> (forall i, In i is -> 0 <= i) -> NoDup (dnew l p is).
Proof.
  intros l p is Pp Nl Ni Hg Hi. pose proof (prime_ge2 p Pp) as P2. unfold dnew. induction Ni as [|i is N Ni IH]; cbn [flat_map]; [constructor|].
  assert (Hi0 : 0 <= i) by (apply Hi; left; reflexivity). pose proof (Z.pow_pos_nonneg p i ltac:(lia) Hi0) as Pi.
  assert (N1 : NoDup (map (fun g => g * p ^ i) l)).
  { apply FinFun.Injective_map_NoDup; [|exact Nl]. intros a b E. apply (Z.mul_reg_r _ _ (p ^ i)); [lia | exact E]. }
  specialize (IH ltac:(intros j Hj; apply Hi; right; exact Hj)).
  assert (D : forall x, In x (map (fun g => g * p ^ i) l) -> ~ In x (flat_map (fun i => map (fun g => g * p ^ i) l) is)).
  { intros x Hx C. apply in_map_iff in Hx. destruct Hx as [g [<- Hgl]]. apply in_flat_map in C. destruct C as [j [Hj C]]. apply in_map_iff in C. destruct C as [h [E Hh]].
    destruct (val_unique p h g j i Pp (Hg h Hh) (Hg g Hgl) (Hi j (or_intror Hj)) Hi0 E) as [-> _]. contradiction. }
  revert N1 D. generalize (map (fun g => g * p ^ i) l). intros a Na. induction Na as [|x a Nx Na IHa]; intros D; cbn [app]; [exact IH|]. constructor.
  - intros C. apply in_app_or in C. destruct C as [C|C]; [contradiction | exact (D x (or_introl eq_refl) C)].
  - apply IHa. intros y Hy. apply D. right. exact Hy.
Qed.
Lemma dstep_cons0 : forall l p e, 0 <= e -> dstep l (p, e) = dnew l p (0 :: range_step 1 (e + 1) 1).
Proof.
  intros l p e He. unfold dstep, dnew. cbn [fst snd flat_map]. f_equal. rewrite <- (map_id l) at 1. apply map_ext. intros g. rewrite Z.pow_0_r, Z.mul_1_r. reflexivity.
Qed.
Lemma dstep_exact : forall l p e N, prime p -> 1 <= e -> 1 <= N -> ~ (p | N) -> lists_divisors l N -> lists_divisors (dstep l (p, e)) (N * p ^ e).
Proof.
  intros l p e N Pp He HN Hp [ND HD]. pose proof (prime_ge2 p Pp) as P2. pose proof (Z.pow_pos_nonneg p e ltac:(lia) ltac:(lia)) as Ppe.
  assert (Hg : forall g, In g l -> ~ (p | g)) by (intros g H C; apply HD in H; apply Hp; eapply Z.divide_trans; [exact C | apply H]).
  split.
  - rewrite dstep_cons0 by lia. apply dnew_nodup; try assumption.
    + constructor; [rewrite range1_in by lia; lia|]. unfold range_step. apply sorted_NoDup, range_from_sorted. lia.
    + intros i [<-|Hi]; [lia|]. apply range1_in in Hi; lia.
  - intros d. rewrite dstep_in by lia. split.
    + intros [g [i [H [Hi ->]]]]. apply HD in H. destruct H as [H1 H2]. pose proof (Z.pow_pos_nonneg p i ltac:(lia) ltac:(lia)). split; [nia|].
      eapply Z.divide_trans; [apply Z.mul_divide_mono_r; exact H2 | apply Z.mul_divide_mono_l; exists (p ^ (e - i)); rewrite <- Z.pow_add_r by lia; f_equal; lia].
    + intros [H1 H2]. destruct (prime_val p d Pp H1) as [i [g [Hi [Hg1 [E Ng]]]]]. exists g, i. split; [|split; [|exact E]].
      * apply HD. split; [lia|]. assert (D : (g | p ^ e * N)) by (rewrite Z.mul_comm; eapply Z.divide_trans; [|exact H2]; rewrite E; apply Z.divide_factor_l).
        apply Gauss in D; [exact D|]. apply rel_prime_Zpower_r; [lia|]. apply rel_prime_sym, prime_rel_prime; assumption.
      * split; [exact Hi|]. destruct (Z.le_gt_cases i e) as [L|L]; [exact L|]. exfalso. apply Hp. destruct H2 as [c C]. rewrite E in C. replace i with (e + (1 + (i - e - 1))) in C by lia. rewrite (Z.pow_add_r p e), Z.pow_add_r, Z.pow_1_r in C by lia.
        exists (c * g * p ^ (i - e - 1)). apply (Z.mul_reg_r _ _ (p ^ e)); [lia|]. rewrite C. ring.
Qed.
Lemma fold_exact : forall m l N, Forall (fun pe => prime (fst pe) /\ 1 <= snd pe) m -> NoDup (map fst m) -> 1 <= N -> (forall p, In p (map fst m) -> ~ (p | N)) -> lists_divisors l N -> lists_divisors (fold_left dstep m l) (N * prod_powers m).
Proof.
  induction m as [|[p e] m IH]; intros l N F ND HN Hp HL; cbn [fold_left prod_powers]; [rewrite Z.mul_1_r; exact HL|]. inversion F as [|? ? [Pp He] F']; subst. cbn [map fst snd] in *. inversion ND as [|? ? N1 N2]; subst.
  rewrite Z.mul_assoc. pose proof (prime_ge2 p Pp). pose proof (Z.pow_pos_nonneg p e ltac:(lia) ltac:(lia)). apply IH; [exact F' | exact N2 | nia | |].
  - intros q Hq C. assert (Pq : prime q). { apply in_map_iff in Hq. destruct Hq as [[q' k] [<- Hin]]. rewrite Forall_forall in F'. apply (F' _ Hin). }
    apply prime_div_mul in C; [|exact Pq]. destruct C as [C|C]; [exact (Hp q (or_intror Hq) C)|]. apply prime_div_pow in C; [|exact Pq | lia]. apply prime_divides_prime in C; try assumption. subst. contradiction.
  - apply dstep_exact; try assumption. apply Hp. left. reflexivity.
Qed.
Lemma divisors_of_1 : lists_divisors [1] 1.
Proof.
  split; [constructor; [intros [] | constructor]|]. intros d. cbn [In]. split.
  - intros [<-|[]]. split; [lia | apply Z.divide_refl].
  - intros [H1 H2]. left. apply Z.divide_1_r_nonneg in H2; lia.
Qed.
Theorem fold_divisors : forall n m, prime_factorization n m -> lists_divisors (fold_left dstep m [1]) n.
Proof.
  intros n m [[S E] [P F]]. rewrite <- F, <- (Z.mul_1_l (prod_powers m)). apply fold_exact; [| apply sorted_NoDup, S | lia | | exact divisors_of_1].
  - rewrite Forall_forall in *. intros pe H. split; [apply P, H | apply E, H].
  - intros p Hp C. apply in_map_iff in Hp. destruct Hp as [pe [<- Hin]]. rewrite Forall_forall in P. specialize (P _ Hin). apply Z.divide_1_r_nonneg in C; pose proof (prime_ge2 _ P); lia.
Qed.
Lemma fold_sound : forall m l N, good m -> (forall d, In d l -> 1 <= d /\ (d | N)) -> forall d, In d (fold_left dstep m l) -> 1 <= d /\ (d | N * prod_powers m).
Proof.
  induction m as [|[p e] m IH]; intros l N G H; cbn [fold_left prod_powers]; [rewrite Z.mul_1_r; exact H|]. inversion G as [|? ? [A B] G']; subst. cbn [fst snd] in *. rewrite Z.mul_assoc. apply IH; [exact G'|].
  intros d Hd. apply dstep_in in Hd; [|lia]. destruct Hd as [g [i [Hg [Hi ->]]]]. destruct (H g Hg) as [H1 H2]. pose proof (Z.pow_pos_nonneg p i ltac:(lia) ltac:(lia)). split; [nia|].
  eapply Z.divide_trans; [apply Z.mul_divide_mono_r; exact H2 | apply Z.mul_divide_mono_l; exists (p ^ (e - i)); rewrite <- Z.pow_add_r by lia; f_equal; lia].
Qed.
