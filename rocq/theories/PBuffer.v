(** * Queries on the prime buffer: bound, contains, primes, nprimes, primorial. *)
From Coq Require Import ZArith Znumtheory List Lia Bool Sorted.
From Verif Require Import Base Spec Ext NT PBase Tables MInteger MSieve PTables PSieve.
Import ListNotations.
Local Open Scope Z_scope.

(** ** Counting primes with a list *)
Lemma count_filter : forall P n, count P n = Z.of_nat (length (filter P (range_from n 1 1))).
Proof.
  intros P. induction n as [|n IH]; [reflexivity|]. cbn [count]. rewrite IH.
  replace (S n) with (n + 1)%nat by lia. rewrite range_from_app, filter_app, app_length.
  cbn [range_from filter]. replace (1 + Z.of_nat n * 1) with (Z.of_nat (n + 1)) by lia.
  destruct (P (Z.of_nat (n + 1))); cbn [length]; lia.
Qed.
Lemma filter_primeb_list : forall N, lists_primes (filter primeb (range_from (Z.to_nat N) 1 1)) (fun p => p <= N).
Proof.
  intros N. split; [apply sorted_filter, range_from_sorted; lia|].
  intros p. rewrite filter_In, primeb_spec, range_from_in. split.
  - intros [[k [Hk E]] Hp]. split; [exact Hp | lia].
  - intros [Hp Hlt]. split; [|exact Hp]. pose proof (prime_ge2 p Hp). exists (p - 1). lia.
Qed.
Lemma lists_primes_count : forall l N, lists_primes l (fun p => p <= N) -> Z.of_nat (length l) = prime_count N.
Proof.
  intros l N H. unfold prime_count. rewrite count_filter. f_equal. f_equal.
  eapply lists_primes_unique; [exact H | apply filter_primeb_list].
Qed.
Lemma lists_primes_ext : forall l (B B' : Z -> Prop), (forall p, prime p -> (B p <-> B' p)) ->
  lists_primes l B -> lists_primes l B'.
Proof.
  intros l B B' HB [Hs H]. split; [exact Hs|]. intros p. rewrite H. split; intros [A C]; split; auto; apply (HB p); auto.
Qed.
Lemma lists_primes_lt : forall l N, lists_primes l (fun p => p < N) <-> lists_primes l (fun p => p <= N - 1).
Proof. intros l N. split; apply lists_primes_ext; intros; lia. Qed.
Lemma lists_primes_count_lt : forall l N, lists_primes l (fun p => p < N) -> Z.of_nat (length l) = prime_count (N - 1).
Proof. intros l N H. apply lists_primes_count, lists_primes_lt, H. Qed.

(** splitting a sorted list by position *)
Lemma sorted_nth_split : forall l i x, StronglySorted Z.lt l -> nth_error l i = Some x ->
  (forall y, In y (firstn (S i) l) <-> In y l /\ y <= x).
Proof.
  intros l i x Hs Hn y. pose proof (firstn_skipn (S i) l) as E.
  destruct (nth_error_split l i Hn) as [l1 [l2 [El Hl]]].
  assert (F : firstn (S i) l = l1 ++ [x]).
  { rewrite El. replace (l1 ++ x :: l2) with ((l1 ++ [x]) ++ l2) by (rewrite <- app_assoc; reflexivity).
    rewrite firstn_app. rewrite app_length. cbn [length]. replace (S i - (length l1 + 1))%nat with O by lia.
    rewrite firstn_O, app_nil_r. apply firstn_all2. rewrite app_length. cbn [length]. lia. }
  rewrite F. rewrite El in Hs. apply sorted_app_inv in Hs. destruct Hs as [S1 [S2 S3]].
  inversion S2 as [|a l0 S2' Hall]; subst. rewrite Forall_forall in Hall.
  rewrite in_app_iff. rewrite !in_app_iff. cbn [In]. split.
  - intros [A|[A|[]]].
    + split; [auto|]. specialize (S3 y x A (or_introl eq_refl)). lia.
    + split; [auto | lia].
  - intros [[A|[A|A]] C]; auto. specialize (Hall y A). lia.
Qed.

(** the element at position i is the (i+1)-th prime *)
Lemma lists_primes_nth : forall l N i x, lists_primes l (fun p => p < N) -> nth_error l i = Some x ->
  nth_prime_is (Z.of_nat i + 1) x.
Proof.
  intros l N i x HL Hn. pose proof HL as [Hs Hin]. split.
  - apply Hin. eapply nth_error_In; eauto.
  - assert (H : lists_primes (firstn (S i) l) (fun p => p <= x)).
    { split; [apply sorted_firstn, Hs|]. intros p. rewrite (sorted_nth_split l i x Hs Hn), Hin.
      assert (x < N) by (apply Hin; eapply nth_error_In; eauto). split; intuition lia. }
    apply lists_primes_count in H. rewrite <- H. rewrite firstn_length_le; [lia|].
    assert (nth_error l i <> None) by congruence. apply nth_error_Some in H0. lia.
Qed.
Lemma pc_le_iff : forall p q, prime p -> prime q -> (prime_count p <= prime_count q <-> p <= q).
Proof.
  intros p q Hp Hq. split; intros H.
  - destruct (Z.le_gt_cases p q); [assumption|]. pose proof (pc_prime_lt q p Hp ltac:(lia)). lia.
  - apply pc_mono, H.
Qed.
Lemma pc_lt_iff : forall x p, prime p -> (prime_count x < prime_count p <-> x < p).
Proof.
  intros x p Hp. split; intros H.
  - destruct (Z.lt_ge_cases x p); [assumption|]. pose proof (pc_mono p x ltac:(lia)). lia.
  - apply pc_prime_lt; auto.
Qed.

(** the first n elements *)
Lemma lists_primes_firstn : forall l N n, lists_primes l (fun p => p < N) -> (n <= length l)%nat ->
  lists_primes (firstn n l) (fun p => prime_count p <= Z.of_nat n) /\ length (firstn n l) = n.
Proof.
  intros l N n HL Hn. pose proof HL as [Hs Hin]. split; [|apply firstn_length_le, Hn].
  destruct n as [|i].
  - split; [constructor|]. cbn [firstn In]. intros p. split; [tauto|]. intros [Hp Hc].
    pose proof (pc_prime_lt 1 p Hp ltac:(pose proof (prime_ge2 p Hp); lia)). rewrite pc_lt2 in H by lia. lia.
  - destruct (nth_error l i) as [x|] eqn:E; [|apply nth_error_None in E; lia].
    pose proof (lists_primes_nth l N i x HL E) as [Hpx Hcx].
    split; [apply sorted_firstn, Hs|]. intros p. rewrite (sorted_nth_split l i x Hs E), Hin.
    assert (x < N) by (apply Hin; eapply nth_error_In; eauto).
    replace (Z.of_nat (S i)) with (prime_count x) by lia. split.
    + intros [[A B] C]. split; [exact A | apply pc_mono, C].
    + intros [A B]. apply (proj1 (pc_le_iff p x A Hpx)) in B. split; [split; [exact A | lia] | exact B].
Qed.

(** ** bound and contains *)
Lemma last_in : forall l (x : Z), In (last l x) (x :: l).
Proof.
  induction l as [|a l IH]; intros x; [left; reflexivity|]. right. cbn [last].
  destruct l as [|b l]; [left; reflexivity|]. apply (IH a) || idtac.
  specialize (IH a). cbn [last] in IH.
  replace (last (b :: l) x) with (last (b :: l) a); [exact IH|].
  clear. revert b. induction l as [|c l IHl]; intros b; [reflexivity|]. cbn [last] in *. apply IHl.
Qed.
Lemma last_default : forall l (b x y : Z), last (b :: l) x = last (b :: l) y.
Proof. induction l as [|c l IH]; intros b x y; [reflexivity|]. cbn [last] in *. apply IH. Qed.
Lemma last_cons : forall l (b x : Z), last (b :: l) x = last l b.
Proof. induction l as [|c l IH]; intros b x; [reflexivity|]. rewrite (last_default l c b x). reflexivity. Qed.
Lemma sorted_last : forall l x y, StronglySorted Z.lt (x :: l) -> In y (x :: l) -> y <= last l x.
Proof.
  induction l as [|a l IH]; intros x y Hs Hy.
  - destruct Hy as [->|[]]. cbn. lia.
  - inversion Hs as [|x' l0 Hs' Hall]; subst. rewrite last_cons. destruct Hy as [->|Hy].
    + rewrite Forall_forall in Hall. pose proof (Hall a (or_introl eq_refl)).
      pose proof (IH a a Hs' (or_introl eq_refl)). lia.
    + apply IH; assumption.
Qed.
Lemma buf_ok_2 : forall b, buf_ok b -> In 2 (b_list b).
Proof. intros b [[_ H] [_ H55]]. apply H. split; [apply prime_2 | lia]. Qed.

Lemma buf_bound_spec : forall b, buf_ok b -> exists B, buf_bound b = Ret B /\ greatest_prime_below (b_next b) B.
Proof.
  intros b Hb. pose proof (buf_ok_2 b Hb) as H2. destruct Hb as [[Hs Hin] _]. unfold buf_bound.
  destruct (b_list b) as [|x l]; [destruct H2|]. exists (last l x). split; [reflexivity|].
  pose proof (last_in l x) as Hl. apply Hin in Hl. destruct Hl as [Hp Hlt].
  split; [exact Hp|]. split; [exact Hlt|]. intros q Hq Hqn. apply sorted_last; [exact Hs|]. apply Hin. auto.
Qed.
Lemma buf_ok_bound_list : forall b B, buf_ok b -> buf_bound b = Ret B -> lists_primes (b_list b) (fun p => p <= B).
Proof.
  intros b B Hb E. destruct (buf_bound_spec b Hb) as [B' [E' [HB [HBn HBm]]]]. rewrite E in E'. injection E' as <-.
  destruct Hb as [HL _]. eapply lists_primes_ext; [|exact HL]. intros p Hp. split; intros H; [apply HBm; auto | lia].
Qed.
Lemma buf_contains_spec : forall b n, buf_ok b -> (buf_contains b n = true <-> prime n /\ n < b_next b).
Proof.
  intros b n [[Hs Hin] _]. rewrite <- Hin. rewrite <- (bsearch_is_found _ n Hs). unfold buf_contains.
  destruct (bsearch (b_list b) n) as [k|k]; split; intros H; try discriminate; eauto.
  destruct H as [k' H]. discriminate.
Qed.

(** ** primes *)
Lemma upto_spec : forall l x, StronglySorted Z.lt l ->
  (forall y, In y (firstn (upto_position l x) l) <-> In y l /\ y <= x) /\ (upto_position l x <= length l)%nat.
Proof.
  intros l x Hs. unfold upto_position. pose proof (bsearch_split l x Hs) as P. cbv zeta in P.
  destruct (bsearch l x) as [k|k] eqn:E.
  - apply bsearch_found in E; [|exact Hs]. destruct E as [E _]. split.
    + apply sorted_nth_split; assumption.
    + assert (nth_error l k <> None) by congruence. apply nth_error_Some in H. lia.
  - apply bsearch_notfound in E; [|exact Hs]. destruct E as [E Hk]. split; [|exact Hk].
    destruct P as [P1 P2]. intros y. rewrite <- (firstn_skipn k l) at 2. rewrite in_app_iff. split.
    + intros H. split; [auto|]. specialize (P1 y H). lia.
    + intros [[H|H] Hy]; [exact H|]. pose proof (P2 y H). assert (y = x) by lia. subst y.
      exfalso. apply E. rewrite <- (firstn_skipn k l). apply in_or_app. right. exact H.
Qed.
Lemma upto_lists : forall l N x, lists_primes l (fun p => p < N) -> x < N ->
  lists_primes (firstn (upto_position l x) l) (fun p => p <= x).
Proof.
  intros l N x [Hs Hin] Hx. split; [apply sorted_firstn, Hs|]. intros p.
  destruct (upto_spec l x Hs) as [H _]. rewrite H, Hin. split; intuition lia.
Qed.
Lemma upto_count : forall l N x, lists_primes l (fun p => p < N) -> x < N ->
  Z.of_nat (upto_position l x) = prime_count x.
Proof.
  intros l N x HL Hx. pose proof (upto_lists l N x HL Hx) as H. apply lists_primes_count in H.
  rewrite <- H. rewrite firstn_length_le; [reflexivity|]. apply upto_spec. apply HL.
Qed.

Theorem buf_primes_spec : forall pf b limit,
  buf_ok b -> b_next b <= 2 ^ 32 + 1 -> 0 <= limit <= 2 ^ 64 - 3 ->
  exists l b', buf_primes pf b limit = Ret (l, b') /\ lists_primes l (fun p => p <= limit) /\
    buf_ok b' /\ b_next b' = Z.max (b_next b) (next_after limit).
Proof.
  intros pf b limit Hb Hn Hl. destruct (reserve_spec pf b limit Hb Hn Hl) as [b' [E [Hb' [Hn' Hlt]]]].
  unfold buf_primes. rewrite E. cbn [bind]. eexists. exists b'. split; [reflexivity|].
  split; [|split; assumption]. eapply upto_lists; [apply Hb' | exact Hlt].
Qed.

(** ** nprimes *)
Lemma small_len : forall f, Z.of_nat (length (SMALL_PRIMES f)) = match f with BigTable => 1024 | SmallTable => 54 end.
Proof. intros [|]; vm_compute; reflexivity. Qed.
Lemma small_primes_lt : forall f p, In p (SMALL_PRIMES f) -> prime p /\ p < SMALL_PRIMES_NEXT f.
Proof. intros f p H. apply (proj2 (small_primes_list f)), H. Qed.
Lemma small_next : forall f, SMALL_PRIMES_NEXT f = match f with BigTable => 8167 | SmallTable => 257 end.
Proof. intros [|]; vm_compute; reflexivity. Qed.

(** the upper bound is enough: at least [n] primes do not exceed it *)
Definition bound_ok (fl : Z -> option (Z * Z)) (n : Z) : Prop :=
  exists lo hi, fl n = Some (lo, hi) /\ n <= prime_count hi /\ 0 <= hi <= 2 ^ 64 - 3.

Lemma nth_prime_bounds_u64 : forall f fl n, 0 <= n ->
  Z.of_nat (length (SMALL_PRIMES f)) < n -> nth_prime_bounds f u64 fl n = Ret (fl n).
Proof.
  intros f fl n H0 Hn. unfold nth_prime_bounds.
  replace (n =? 0) with false by (symmetry; apply Z.eqb_neq; pose proof (small_len f); destruct f; lia).
  replace (n <=? Z.of_nat (length (SMALL_PRIMES f))) with false by (symmetry; apply Z.leb_gt; lia).
  reflexivity.
Qed.
Lemma nth_prime_bounds_table : forall f t fl n, 1 <= n <= Z.of_nat (length (SMALL_PRIMES f)) ->
  exists p, nth_prime_is n p /\ p < SMALL_PRIMES_NEXT f /\
    nth_prime_bounds f t fl n = (c <- unwrap (from_prim t p) ;; Ret (Some (c, c))).
Proof.
  intros f t fl n Hn. unfold nth_prime_bounds.
  replace (n =? 0) with false by (symmetry; apply Z.eqb_neq; lia).
  replace (n <=? Z.of_nat (length (SMALL_PRIMES f))) with true by (symmetry; apply Z.leb_le; lia).
  destruct (nth_error (SMALL_PRIMES f) (Z.to_nat (n - 1))) as [p|] eqn:E; [|apply nth_error_None in E; lia].
  exists p. split.
  - replace n with (Z.of_nat (Z.to_nat (n - 1)) + 1) by lia. eapply lists_primes_nth; [apply small_primes_list | exact E].
  - split; [apply small_primes_lt; eapply nth_error_In; eauto|].
    unfold index. replace (n - 1 <? 0) with false by (symmetry; apply Z.ltb_ge; lia). rewrite E. reflexivity.
Qed.

Lemma pc_prime_pos : forall p, prime p -> 1 <= prime_count p.
Proof.
  intros p Hp. pose proof (pc_prime_lt 1 p Hp ltac:(pose proof (prime_ge2 p Hp); lia)).
  pose proof (pc_nonneg 1). lia.
Qed.

Theorem buf_nprimes_spec : forall f pf fl b n,
  buf_ok b -> b_next b <= 2 ^ 32 + 1 -> 0 <= n ->
  (Z.of_nat (length (SMALL_PRIMES f)) < n -> bound_ok fl n) ->
  exists l b', buf_nprimes f pf fl b n = Ret (l, b') /\
    lists_primes l (fun p => prime_count p <= n) /\ Z.of_nat (length l) = n /\
    buf_ok b' /\
    exists hi, nth_prime_bounds f u64 fl n = Ret (Some hi) /\ b_next b' = Z.max (b_next b) (next_after (snd hi)).
Proof.
  intros f pf fl b n Hb Hn H0 Hfl.
  assert (G : exists lo hi, nth_prime_bounds f u64 fl n = Ret (Some (lo, hi)) /\ n <= prime_count hi /\ 0 <= hi <= 2 ^ 64 - 3).
  { destruct (Z.eq_dec n 0) as [->|Hn0].
    - exists 0, 0. split; [reflexivity|]. rewrite pc_lt2 by lia. lia.
    - destruct (Z.le_gt_cases n (Z.of_nat (length (SMALL_PRIMES f)))) as [Hle|Hgt].
      + destruct (nth_prime_bounds_table f u64 fl n ltac:(lia)) as [p [[Hp Hc] [Hlt E]]].
        exists p, p. pose proof (prime_ge2 p Hp). pose proof (small_next f).
        rewrite from_prim_ok in E by (rngs; destruct f; lia). cbn [unwrap bind] in E. split; [exact E|].
        split; [lia|]. destruct f; lia.
      + destruct (Hfl Hgt) as [lo [hi [E [A B]]]]. exists lo, hi. rewrite nth_prime_bounds_u64 by lia. rewrite E. auto. }
  destruct G as [lo [hi [E [Hc Hhi]]]]. unfold buf_nprimes. rewrite E. cbn [bind unwrap].
  destruct (reserve_spec pf b hi Hb Hn Hhi) as [b' [Er [Hb' [Hn' Hlt]]]]. rewrite Er. cbn [bind].
  assert (Hlen : n <= Z.of_nat (length (b_list b'))).
  { pose proof (lists_primes_count_lt _ _ (proj1 Hb')). pose proof (pc_mono hi (b_next b' - 1) ltac:(lia)). lia. }
  replace (match pf with Debug => Z.of_nat (length (b_list b')) <? n | Release => false end) with false
    by (destruct pf; [symmetry; apply Z.ltb_ge; lia | reflexivity]).
  eexists. exists b'. split; [reflexivity|].
  destruct (lists_primes_firstn (b_list b') (b_next b') (Z.to_nat n) (proj1 Hb') ltac:(lia)) as [A B].
  rewrite Z2Nat.id in A by lia. split; [exact A|]. split; [rewrite B; lia|]. split; [exact Hb'|].
  exists (lo, hi). split; [reflexivity | exact Hn'].
Qed.

(** ** primorial *)
Lemma prod_pos : forall l, Forall (fun p => 1 <= p) l -> 1 <= prod l.
Proof. intros l H. induction H as [|x l Hx Hl IH]; cbn [prod]; [lia | nia]. Qed.

Lemma primorial_fold : forall pf t l acc, Forall (fun p => 1 <= p) l -> 1 <= acc -> in_range t (acc * prod l) ->
  foldM (fun acc p => p' <- unwrap (from_prim t p) ;; mul_ pf t acc p') l acc = Ret (acc * prod l).
Proof.
  intros pf t l. induction l as [|p l IH]; intros acc Hl Ha Hr; cbn [foldM prod] in *.
  - rewrite Z.mul_1_r. reflexivity.
  - inversion Hl as [|p' l' Hp Hl']; subst. pose proof (prod_pos l Hl').
    assert (Q1 : p <= acc * p) by nia. assert (Q2 : acc * p <= acc * (p * prod l)) by (rewrite Z.mul_assoc; nia).
    rewrite from_prim_ok by (eapply in_range_le; [|exact Hr]; lia). cbn [unwrap bind].
    rewrite mul_ok by (eapply in_range_le; [|exact Hr]; lia). cbn [bind].
    rewrite IH; [f_equal; ring | exact Hl' | nia |]. replace (acc * p * prod l) with (acc * (p * prod l)) by ring. exact Hr.
Qed.
Lemma primorial_fold_debug : forall t l acc r, Forall (fun p => 1 <= p) l -> 1 <= acc ->
  foldM (fun acc p => p' <- unwrap (from_prim t p) ;; mul_ Debug t acc p') l acc = Ret r -> r = acc * prod l.
Proof.
  intros t l. induction l as [|p l IH]; intros acc r Hl Ha Hr; cbn [foldM prod] in *.
  - injection Hr as <-. ring.
  - inversion Hl as [|p' l' Hp Hl']; subst. binds Hr. binds E. apply unwrap_ret in E0.
    apply from_prim_inv in E0. destruct E0 as [-> Hpr]. unfold mul_, wrapz in E.
    destruct (in_rangeb t (acc * p)) eqn:Er; [|destruct t; discriminate]. injection E as <-.
    rewrite (IH (acc * p) r Hl' ltac:(nia) Hr). ring.
Qed.
