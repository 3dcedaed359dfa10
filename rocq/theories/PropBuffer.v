(** * Properties C02, C03, C04, C05, C09: the prime buffer.
    [buffer] is NaiveBuffer; a history is any sequence of mutating calls on a new buffer. *)
From Coq Require Import ZArith Znumtheory List Lia Bool Sorted.
From Verif Require Import Base Spec Ext NT PBase Tables MInteger MSieve PTables PSieve PBuffer.
Import ListNotations.
Local Open Scope Z_scope.

(** The mutating calls of the buffer itself (reserve, clear, primes, nprimes). *)
Inductive op := OReserve (limit : Z) | OClear | OPrimes (limit : Z) | ONprimes (count : Z).

Definition apply_op (f : feature) (pf : profile) (fl : Z -> option (Z * Z)) (b : buffer) (o : op) : res buffer :=
  match o with
  | OReserve l => reserve pf b l
  | OClear => Ret (buf_clear b)
  | OPrimes l => '(_, b') <- buf_primes pf b l ;; Ret b'
  | ONprimes n => '(_, b') <- buf_nprimes f pf fl b n ;; Ret b'
  end.
Definition history (f : feature) (pf : profile) (fl : Z -> option (Z * Z)) (l : list op) : res buffer :=
  foldM (apply_op f pf fl) l (buf_new f).

(** Arguments considered: limits below 2^32; for [nprimes n] beyond the table, the upper bound
    [hi] used for the n-th prime must be correct (at least n primes <= hi) and below 2^32. *)
Definition op_ok (f : feature) (fl : Z -> option (Z * Z)) (o : op) : Prop :=
  match o with
  | OReserve l | OPrimes l => 0 <= l <= 2 ^ 32 - 1
  | OClear => True
  | ONprimes n => 0 <= n /\
      (Z.of_nat (length (SMALL_PRIMES f)) < n ->
       exists lo hi, fl n = Some (lo, hi) /\ n <= prime_count hi /\ 0 <= hi <= 2 ^ 32 - 1)
  end.

Lemma next_after_bound : forall l, 0 <= l <= 2 ^ 32 - 1 -> next_after l <= 2 ^ 32 + 1.
Proof.
  intros l H. unfold next_after. pose proof (lor1_bound l (2 ^ 32 - 1) H eq_refl). lia.
Qed.
Lemma apply_op_ok : forall f pf fl b o, buf_ok b -> b_next b <= 2 ^ 32 + 1 -> op_ok f fl o ->
  exists b', apply_op f pf fl b o = Ret b' /\ buf_ok b' /\ b_next b' <= 2 ^ 32 + 1.
Proof.
  intros f pf fl b o Hb Hn Ho. destruct o as [l| |l|n]; cbn [apply_op op_ok] in *.
  - destruct (reserve_spec pf b l Hb Hn ltac:(lia)) as [b' [E [H1 [H2 _]]]]. exists b'. split; [exact E|].
    split; [exact H1|]. pose proof (next_after_bound l Ho). lia.
  - exists (buf_clear b). split; [reflexivity|]. split; [apply buf_clear_ok, Hb | cbn; lia].
  - destruct (buf_primes_spec pf b l Hb Hn ltac:(lia)) as [x [b' [E [_ [H1 H2]]]]]. exists b'. rewrite E. split; [reflexivity|].
    split; [exact H1|]. pose proof (next_after_bound l Ho). lia.
  - destruct Ho as [H0 Ho].
    destruct (buf_nprimes_spec f pf fl b n Hb Hn H0) as [x [b' [E [_ [_ [H1 [[lo hi] [Eh H2]]]]]]]].
    { intros H. destruct (Ho H) as [lo [hi [A [B C]]]]. exists lo, hi. split; [exact A|]. split; [exact B | lia]. }
    exists b'. rewrite E. split; [reflexivity|]. split; [exact H1|].
    assert (0 <= hi <= 2 ^ 32 - 1); [|pose proof (next_after_bound hi H); cbn [snd] in H2; lia].
    destruct (Z.eq_dec n 0) as [->|Hn0].
    + unfold nth_prime_bounds in Eh. cbn in Eh. injection Eh as <- <-. lia.
    + destruct (Z.le_gt_cases n (Z.of_nat (length (SMALL_PRIMES f)))) as [Hle|Hgt].
      * destruct (nth_prime_bounds_table f u64 fl n ltac:(lia)) as [p [[Hp Hc] [Hlt Ep]]].
        pose proof (prime_ge2 p Hp). pose proof (small_next f).
        rewrite Ep, from_prim_ok in Eh by (rngs; destruct f; lia). cbn in Eh. injection Eh as <- <-. destruct f; lia.
      * destruct (Ho Hgt) as [lo' [hi' [A [B C]]]]. rewrite nth_prime_bounds_u64, A in Eh by lia. injection Eh as <- <-. exact C.
Qed.
Lemma history_ok : forall f pf fl ops, Forall (op_ok f fl) ops ->
  exists b, history f pf fl ops = Ret b /\ buf_ok b /\ b_next b <= 2 ^ 32 + 1.
Proof.
  intros f pf fl ops H. unfold history.
  assert (G : forall b, buf_ok b -> b_next b <= 2 ^ 32 + 1 ->
    exists b', foldM (apply_op f pf fl) ops b = Ret b' /\ buf_ok b' /\ b_next b' <= 2 ^ 32 + 1).
  { induction H as [|o ops Ho Hops IH]; intros b Hb Hn; cbn [foldM]; [eauto|].
    destruct (apply_op_ok f pf fl b o Hb Hn Ho) as [b' [E [H1 H2]]]. rewrite E. cbn [bind]. auto. }
  apply G; [apply buf_new_ok | destruct f; vm_compute; congruence].
Qed.
Lemma history_inv : forall f pf fl ops b, Forall (op_ok f fl) ops -> history f pf fl ops = Ret b ->
  buf_ok b /\ b_next b <= 2 ^ 32 + 1.
Proof. intros f pf fl ops b H E. destruct (history_ok f pf fl ops H) as [b' [E' H']]. congruence. Qed.

(** ** C01: no history panics, and iterating yields exactly the primes up to bound(), each once,
    in increasing order; the primes up to 53 are always there. *)
Theorem C01_buffer_exact_after_any_history : forall f pf fl ops,
  Forall (op_ok f fl) ops ->
  exists b B, history f pf fl ops = Ret b /\ buf_bound b = Ret B /\ 53 <= B /\
    lists_primes (buf_iter b) (fun p => p <= B).
Proof.
  intros f pf fl ops H. destruct (history_ok f pf fl ops H) as [b [E [Hb Hn]]].
  destruct (buf_bound_spec b Hb) as [B [EB [HBp [HBn HBm]]]]. exists b, B.
  split; [exact E|]. split; [exact EB|]. split.
  - apply HBm; [apply primeb_spec; vm_compute; reflexivity|]. destruct Hb as [_ [_ Hb]]. lia.
  - apply buf_ok_bound_list; assumption.
Qed.

(** ** C02 *)
Theorem C02_primes_exact : forall f pf fl ops b limit,
  Forall (op_ok f fl) ops -> history f pf fl ops = Ret b -> 0 <= limit <= 2 ^ 64 - 3 ->
  exists l b', buf_primes pf b limit = Ret (l, b') /\ lists_primes l (fun p => p <= limit).
Proof.
  intros f pf fl ops b limit H E Hl. destruct (history_inv f pf fl ops b H E) as [Hb Hn].
  destruct (buf_primes_spec pf b limit Hb Hn Hl) as [l [b' [E' [HL _]]]]. eauto.
Qed.
Theorem C02_primes_function_exact : forall f pf limit, 0 <= limit <= 2 ^ 64 - 3 ->
  exists l, nt_primes f pf limit = Ret l /\ lists_primes l (fun p => p <= limit).
Proof.
  intros f pf limit Hl. destruct (C02_primes_exact f pf (fun _ => None) [] (buf_new f) limit (Forall_nil _) eq_refl Hl) as [l [b' [E HL]]].
  exists l. unfold nt_primes. rewrite E. auto.
Qed.
(** Just above that range a debug build panics: the sieve limit (limit | 1) + 2 overflows. *)
Theorem C02_primes_overflow_above_range : forall b limit, 2 ^ 64 - 2 <= limit < 2 ^ 64 ->
  buf_primes Debug b limit = Panic.
Proof.
  intros b limit H. unfold buf_primes, reserve, add_. rewrite wrapz_debug; [reflexivity|].
  rngs. pose proof (lor1_le limit ltac:(lia)). lia.
Qed.

(** ** C03 *)
Theorem C03_contains_and_bound : forall f pf fl ops b,
  Forall (op_ok f fl) ops -> history f pf fl ops = Ret b ->
  exists B, buf_bound b = Ret B /\ prime B /\ buf_contains b B = true /\
    (forall x, x <= B -> (buf_contains b x = true <-> prime x)) /\
    (forall x, B < x -> buf_contains b x = false) /\
    (forall x, In x (buf_iter b) <-> buf_contains b x = true).
Proof.
  intros f pf fl ops b H E. destruct (history_inv f pf fl ops b H E) as [Hb _].
  destruct (buf_bound_spec b Hb) as [B [EB [HBp [HBn HBm]]]]. exists B.
  split; [exact EB|]. split; [exact HBp|].
  split; [apply buf_contains_spec; auto|]. split; [|split].
  - intros x Hx. rewrite buf_contains_spec by exact Hb. split; [tauto|]. intros Hp. split; [exact Hp | lia].
  - intros x Hx. destruct (buf_contains b x) eqn:C; [|reflexivity]. apply buf_contains_spec in C; [|exact Hb].
    destruct C as [Hp Hlt]. specialize (HBm x Hp Hlt). lia.
  - intros x. rewrite buf_contains_spec by exact Hb. destruct Hb as [[_ Hin] _]. apply Hin.
Qed.

(** ** C04: after reserve(limit) every prime <= limit is present ... *)
Theorem C04_reserve_all_primes : forall f pf fl ops b limit,
  Forall (op_ok f fl) ops -> history f pf fl ops = Ret b -> 0 <= limit <= 2 ^ 64 - 3 ->
  exists b', reserve pf b limit = Ret b' /\
    (forall p, prime p -> p <= limit -> buf_contains b' p = true) /\
    (forall x, buf_contains b' x = true -> prime x) /\
    (forall x, buf_contains b x = true -> buf_contains b' x = true).
Proof.
  intros f pf fl ops b limit H E Hl. destruct (history_inv f pf fl ops b H E) as [Hb Hn].
  destruct (reserve_spec pf b limit Hb Hn Hl) as [b' [E' [Hb' [Hn' Hlt]]]]. exists b'. split; [exact E'|].
  split; [|split].
  - intros p Hp Hpl. apply buf_contains_spec; [exact Hb'|]. split; [exact Hp | lia].
  - intros x Hx. apply buf_contains_spec in Hx; tauto.
  - intros x Hx. apply buf_contains_spec in Hx; [|exact Hb]. apply buf_contains_spec; [exact Hb'|].
    destruct Hx. split; [assumption | lia].
Qed.
(** ... but the documented claim "until the largest prime in the buffer is equal or larger than
    limit" is false. *)
Theorem C04_reserve_doc_refuted : exists f pf limit b B,
  history f pf (fun _ => None) [OClear; OReserve limit] = Ret b /\ buf_bound b = Ret B /\ B < limit.
Proof.
  exists BigTable, Debug, 120. eexists. exists 113. split; [vm_compute; reflexivity|]. split; [vm_compute; reflexivity | lia].
Qed.

(** ** C05 *)
Theorem C05_nprimes_exact : forall f pf fl ops b n,
  Forall (op_ok f fl) ops -> history f pf fl ops = Ret b -> 0 <= n ->
  (Z.of_nat (length (SMALL_PRIMES f)) < n ->
     exists lo hi, fl n = Some (lo, hi) /\ n <= prime_count hi /\ 0 <= hi <= 2 ^ 64 - 3) ->
  exists l b', buf_nprimes f pf fl b n = Ret (l, b') /\
    lists_primes l (fun p => prime_count p <= n) /\ Z.of_nat (length l) = n.
Proof.
  intros f pf fl ops b n H E H0 Hfl. destruct (history_inv f pf fl ops b H E) as [Hb Hn].
  destruct (buf_nprimes_spec f pf fl b n Hb Hn H0 Hfl) as [l [b' [E' [HL [Hlen _]]]]]. eauto 6.
Qed.
(** Unconditionally for the sizes covered by the tables. *)
Theorem C05_nprimes_table : forall f pf fl ops b n,
  Forall (op_ok f fl) ops -> history f pf fl ops = Ret b ->
  0 <= n <= match f with BigTable => 1024 | SmallTable => 54 end ->
  exists l b', buf_nprimes f pf fl b n = Ret (l, b') /\
    lists_primes l (fun p => prime_count p <= n) /\ Z.of_nat (length l) = n.
Proof.
  intros f pf fl ops b n H E H0. eapply C05_nprimes_exact; eauto; [lia|]. rewrite small_len. lia.
Qed.
(** Whatever the estimate: in a debug build a returned list is right. *)
Theorem C05_nprimes_debug_any_bound : forall f fl ops b n l b',
  Forall (op_ok f fl) ops -> history f Debug fl ops = Ret b -> 0 <= n ->
  (forall lo hi, fl n = Some (lo, hi) -> 0 <= hi <= 2 ^ 64 - 3) ->
  buf_nprimes f Debug fl b n = Ret (l, b') ->
  lists_primes l (fun p => prime_count p <= n) /\ Z.of_nat (length l) = n.
Proof.
  intros f fl ops b n l b' H E H0 Hfl Er. destruct (history_inv f Debug fl ops b H E) as [Hb Hn].
  destruct (Z.le_gt_cases n (Z.of_nat (length (SMALL_PRIMES f)))) as [Hle|Hgt].
  - destruct (buf_nprimes_spec f Debug fl b n Hb Hn H0 ltac:(lia)) as [l1 [b1 [E1 [A [B _]]]]]. rewrite Er in E1. injection E1 as <- <-. auto.
  - unfold buf_nprimes in Er. rewrite nth_prime_bounds_u64 in Er by lia. cbn [bind] in Er.
    destruct (fl n) as [[lo hi]|] eqn:Ef; [|discriminate]. cbn [unwrap bind] in Er.
    destruct (reserve_spec Debug b hi Hb Hn (Hfl _ _ eq_refl)) as [b2 [E2 [Hb2 _]]]. rewrite E2 in Er. cbn [bind] in Er.
    destruct (Z.of_nat (length (b_list b2)) <? n) eqn:Ec; [discriminate|]. apply Z.ltb_ge in Ec. injection Er as <- <-.
    destruct (lists_primes_firstn _ _ (Z.to_nat n) (proj1 Hb2) ltac:(lia)) as [A B].
    rewrite Z2Nat.id in A by lia. split; [exact A | lia].
Qed.

(** ** C09: the product of the first n primes, whenever it fits the result type. *)
Theorem C09_primorial : forall f pf t fl ops b n l,
  Forall (op_ok f fl) ops -> history f pf fl ops = Ret b -> 0 <= n ->
  (Z.of_nat (length (SMALL_PRIMES f)) < n ->
     exists lo hi, fl n = Some (lo, hi) /\ n <= prime_count hi /\ 0 <= hi <= 2 ^ 64 - 3) ->
  lists_primes l (fun p => prime_count p <= n) -> in_range t (prod l) ->
  exists b', buf_primorial f pf t fl b n = Ret (prod l, b').
Proof.
  intros f pf t fl ops b n l H E H0 Hfl HL Hr. destruct (history_inv f pf fl ops b H E) as [Hb Hn].
  destruct (buf_nprimes_spec f pf fl b n Hb Hn H0 Hfl) as [l' [b' [E' [HL' [Hlen _]]]]]. exists b'.
  unfold buf_primorial. rewrite E'. cbn [bind].
  assert (l' = l) by (eapply lists_primes_unique; eauto). subst l'.
  rewrite primorial_fold; [cbn [bind]; rewrite Z.mul_1_l; reflexivity | | lia | rewrite Z.mul_1_l; exact Hr].
  apply Forall_forall. intros p Hp. apply HL in Hp. pose proof (prime_ge2 p (proj1 Hp)). lia.
Qed.
Theorem C09_primorial_0 : forall f pf t fl ops b, Forall (op_ok f fl) ops -> history f pf fl ops = Ret b ->
  exists b', buf_primorial f pf t fl b 0 = Ret (1, b').
Proof.
  intros f pf t fl ops b H E. destruct (history_inv f pf fl ops b H E) as [Hb Hn].
  destruct (buf_nprimes_spec f pf fl b 0 Hb Hn ltac:(lia)) as [l' [b' [E' [HL' [Hlen _]]]]].
  { rewrite small_len. destruct f; lia. }
  exists b'. unfold buf_primorial. rewrite E'. cbn [bind]. destruct l' as [|x l']; [reflexivity | cbn [length] in Hlen; lia].
Qed.
(** In a debug build the result is never wrong: overflow panics instead. *)
Theorem C09_primorial_debug_sound : forall f t fl ops b n r b',
  Forall (op_ok f fl) ops -> history f Debug fl ops = Ret b -> 0 <= n ->
  (forall lo hi, fl n = Some (lo, hi) -> 0 <= hi <= 2 ^ 64 - 3) ->
  buf_primorial f Debug t fl b n = Ret (r, b') ->
  exists l, lists_primes l (fun p => prime_count p <= n) /\ r = prod l.
Proof.
  intros f t fl ops b n r b' H E H0 Hfl Er. unfold buf_primorial in Er.
  apply bind_ret in Er. destruct Er as [[l b1] [E1 Er]]. apply bind_ret in Er. destruct Er as [r' [E2 Er]].
  injection Er as <- <-. destruct (C05_nprimes_debug_any_bound f fl ops b n l b1 H E H0 Hfl E1) as [HL _].
  exists l. split; [exact HL|]. rewrite <- (Z.mul_1_l (prod l)). eapply primorial_fold_debug; [|lia | exact E2].
  apply Forall_forall. intros p Hp. apply HL in Hp. pose proof (prime_ge2 p (proj1 Hp)). lia.
Qed.

(** ** The hypotheses are met by real runs *)
Definition ex_fl (n : Z) : option (Z * Z) := if n =? 60 then Some (270, 300) else None.
Definition ex_ops : list op := [OReserve 1000; OClear; OReserve 120; OPrimes 300; ONprimes 60].
Example ex_history_ok : Forall (op_ok SmallTable ex_fl) ex_ops.
Proof.
  repeat constructor; cbn [op_ok]; try lia. intros _. exists 270, 300.
  split; [reflexivity|]. split; [vm_compute; congruence | lia].
Qed.
Example ex_history_runs : exists b, history SmallTable Debug ex_fl ex_ops = Ret b /\ b_next b = 303 /\ length (b_list b) = 62%nat.
Proof. eexists. split; [vm_compute; reflexivity | split; reflexivity]. Qed.
Example ex_primes : nt_primes BigTable Debug 30 = Ret [2; 3; 5; 7; 11; 13; 17; 19; 23; 29].
Proof. vm_compute. reflexivity. Qed.
Example ex_primorial : nt_primorial BigTable Debug u64 (fun _ => None) 15 = Ret 614889782588491410.
Proof. vm_compute. reflexivity. Qed.
Example ex_primorial_overflow : nt_primorial BigTable Debug u64 (fun _ => None) 16 = Panic.
Proof. vm_compute. reflexivity. Qed.

Print Assumptions C01_buffer_exact_after_any_history.
Print Assumptions C02_primes_exact.
Print Assumptions C02_primes_function_exact.
Print Assumptions C02_primes_overflow_above_range.
Print Assumptions C03_contains_and_bound.
Print Assumptions C04_reserve_all_primes.
Print Assumptions C04_reserve_doc_refuted.
Print Assumptions C05_nprimes_exact.
Print Assumptions C05_nprimes_table.
Print Assumptions C05_nprimes_debug_any_bound.
Print Assumptions C09_primorial.
Print Assumptions C09_primorial_0.
Print Assumptions C09_primorial_debug_sound.
