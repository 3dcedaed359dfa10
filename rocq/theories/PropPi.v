(** * Properties C01 (with the counting calls), C06, C07, C08, C45, C46: nth_prime, prime_phi,
    prime_pi and the estimates.
    [bounds] stands for the floating point formulas of nth_prime_bounds, [est] for nth_prime_est. *)
From Coq Require Import ZArith Znumtheory List Lia Bool Sorted.
From Verif Require Import Base Tables Spec Ext NT PBase PTables MInteger PInteger MSieve MIsPrime PSieve PBuffer PropBuffer PIsPrime NTPhi MPi PPi PPi2.
Import ListNotations.
Local Open Scope Z_scope.

(** What is assumed of the floating point code, for finding the first N primes, all at most M:
    the upper bound used by nprimes is one; the estimate is any number in 3..M; and is_prime64
    accepts no composite up to M (proved for the table range only, see C11). *)
Definition estimates_ok (f : feature) (bounds : Z -> option (Z * Z)) (est : Z -> res (option Z)) (N M : Z) : Prop :=
  prime_count (Z.sqrt M) <= N <= prime_count M /\ M < 2 ^ 64 /\
  (forall n, Z.of_nat (length (SMALL_PRIMES f)) < n <= 4096 -> n <= N ->
     exists lo hi, bounds n = Some (lo, hi) /\ n <= prime_count hi /\ 0 <= hi < 2 ^ 32) /\
  (forall n, 4096 < n <= N -> exists e, est n = Ret (Some e) /\ 3 <= e <= M) /\
  (4096 < N -> forall m, 2 <= m <= M -> is_prime64 f Debug m = Ret true -> prime m).

Lemma is_prime64_profile : forall f pf m, m < 2 ^ 64 -> is_prime64 f pf m = is_prime64 f Debug m.
Proof. intros f pf m H. rewrite !is_prime64_law by exact H. reflexivity. Qed.
Lemma estimates_reach : forall f bounds est N M, estimates_ok f bounds est N M -> reach f bounds est N.
Proof.
  intros f bounds est N M [HN [HM [Hb [He Hs]]]] n Hn.
  assert (S : 4096 < N -> forall B, B <= M -> sound_on f 2 B).
  { intros H B HB m Hm Hz. apply Hs; [lia | lia|]. rewrite is_prime64_law, Hz by lia. reflexivity. }
  split; [split|].
  - intros H. destruct (Hb n H ltac:(lia)) as [lo [hi X]]. exists lo, hi. exact X.
  - intros H. destruct (He n ltac:(lia)) as [e [E Be]]. destruct (nth_prime_exists n M ltac:(lia)) as [p [Hp Lp]]. exists e, p, 2. split; [exact E|]. split; [lia|]. split; [exact Hp|]. split; [lia|]. split; [exact prime_2|]. split; [lia|]. split; [exact (prime_ge2 p (proj1 Hp))|]. split; apply S; lia.
  - intros e H E. destruct (He n ltac:(lia)) as [e' [E' Be]]. rewrite E in E'. injection E' as <-. pose proof (pc_sqrt_mono e M ltac:(lia)). lia.
Qed.
(** Up to 54 (1024 with big-table) primes nothing is assumed. *)
Definition table_len (f : feature) : Z := match f with BigTable => 1024 | SmallTable => 54 end.
Lemma table_reach : forall f bounds est, reach f bounds est (table_len f).
Proof.
  intros f bounds est n Hn. pose proof (small_len f). unfold table_len in Hn. split; [split|]; intros; exfalso; destruct f; lia.
Qed.
Definition value_is {A} (m : res A) (Q : A -> Prop) : Prop :=
  match m with Ret v => Q v | Panic => False | NoFuel => True end.
Lemma run_value : forall A (Q Q' : A -> Prop) m, run False True Q m -> (forall v, Q v -> Q' v) -> value_is m Q'.
Proof. intros A Q Q' m H HQ. destruct m; cbn in *; auto. Qed.

(** ** C06: whatever the estimate and the history of the buffer, a value returned by nth_prime(n) is
    the n-th prime, and there is no panic. [k] bounds the depth of the recursion. *)
Theorem C06_nth_prime : forall f pf bounds est fn fw N M ops b k n,
  2 ^ 64 <= fn -> 2 ^ 64 <= fw -> estimates_ok f bounds est N M ->
  Forall (op_ok f bounds) ops -> history f pf bounds ops = Ret b -> 1 <= n <= N ->
  value_is (nth_prime f pf bounds est fn fw k b n) (fun '(p, _) => nth_prime_is n p).
Proof.
  intros f pf bounds est fn fw N M ops b k n Hfn Hfw He Hops Hh Hn. pose proof (estimates_reach f bounds est N M He) as HR.
  destruct (all_partial f pf bounds est fn fw Hfn Hfw N HR k) as [_ [H _]]. eapply run_value; [apply (H n Hn b)|].
  - exact (history_inv f pf bounds ops b Hops Hh).
  - intros [p b'] Hp. apply Hp.
Qed.
(** It returns, given enough depth, when the estimate is at most n^2. *)
Theorem C06_nth_prime_returns : forall f pf bounds est fn fw N M n,
  2 ^ 64 <= fn -> 2 ^ 64 <= fw -> estimates_ok f bounds est N M ->
  (forall i e, 4096 < i <= N -> est i = Ret (Some e) -> e <= i * i) -> 1 <= n <= N ->
  exists k0, forall k ops b, (k0 <= k)%nat -> Forall (op_ok f bounds) ops -> history f pf bounds ops = Ret b ->
  exists p b', nth_prime f pf bounds est fn fw k b n = Ret (p, b') /\ nth_prime_is n p.
Proof.
  intros f pf bounds est fn fw N M n Hfn Hfw He Hsq Hn. pose proof (estimates_reach f bounds est N M He) as HR.
  destruct (nth_total f pf bounds est fn fw Hfn Hfw N HR Hsq n Hn) as [k0 H]. exists k0. intros k ops b Hk Hops Hh.
  pose proof (H k Hk b (history_inv f pf bounds ops b Hops Hh)) as R. apply run_total in R. destruct R as [[p b'] [E [Hp _]]]. eauto.
Qed.
(** No assumption at all for the first 54 (1024) primes. *)
Theorem C06_nth_prime_table : forall f pf bounds est fn fw k ops b n,
  Forall (op_ok f bounds) ops -> history f pf bounds ops = Ret b -> 1 <= n <= table_len f ->
  exists p b', nth_prime f pf bounds est fn fw (S k) b n = Ret (p, b') /\ nth_prime_is n p.
Proof.
  intros f pf bounds est fn fw k ops b n Hops Hh Hn. pose proof (history_inv f pf bounds ops b Hops Hh) as Hb. pose proof (small_len f).
  assert (NTHs f pf bounds est fn fw False (S k) n) as R.
  { intros b0 Hb0. cbn [nth_prime]. unfold nth_prime_body. destruct (Z.ltb_spec n (Z.of_nat (length (b_list b0)))) as [L|L].
    - rewrite (index_ok _ _ _ 0) by lia. cbn [bind run]. split; [|exact Hb0].
      replace n with (Z.of_nat (Z.to_nat (n - 1)) + 1) at 1 by lia. eapply (lists_primes_nth (b_list b0)); [apply (proj1 (proj1 Hb0))|]. apply nth_error_nth'. lia.
    - replace (n <=? 4096) with true by (symmetry; apply Z.leb_le; destruct f; cbn [table_len] in Hn; lia).
      destruct (nth_sieve f pf bounds b0 n Hb0) as [p [b' [-> X]]]; [destruct f; cbn [table_len] in Hn; lia | intros; exfalso; destruct f; cbn [table_len] in Hn; lia | exact X]. }
  specialize (R b Hb). apply run_total in R. destruct R as [[p b'] [E [Hp _]]]. eauto.
Qed.
(** nth_prime(0) panics: list[0 - 1] *)
Theorem C06_nth_prime_0_panics : forall f pf bounds est fn fw k ops b,
  Forall (op_ok f bounds) ops -> history f pf bounds ops = Ret b -> nth_prime f pf bounds est fn fw (S k) b 0 = Panic.
Proof.
  intros f pf bounds est fn fw k ops b Hops Hh. destruct (history_inv f pf bounds ops b Hops Hh) as [[Hl [_ Hn]] _].
  cbn [nth_prime]. unfold nth_prime_body. assert (In 2 (b_list b)) by (apply (proj2 Hl); split; [apply prime_2 | lia]).
  destruct (b_list b) as [|x l]; [contradiction|]. destruct (Z.ltb_spec 0 (Z.of_nat (length (x :: l)))) as [L|L]; [reflexivity | cbn [length] in L; lia].
Qed.

(** ** C07 *)
Theorem C07_prime_pi : forall f pf bounds est fn fw N M ops b k limit,
  2 ^ 64 <= fn -> 2 ^ 64 <= fw -> estimates_ok f bounds est N M ->
  Forall (op_ok f bounds) ops -> history f pf bounds ops = Ret b ->
  0 <= limit < 2 ^ 64 - 1 -> prime_count (Z.sqrt limit) <= N ->
  value_is (prime_pi f pf bounds est fn fw k b limit) (fun '(r, _) => r = prime_count limit).
Proof.
  intros f pf bounds est fn fw N M ops b k limit Hfn Hfw He Hops Hh Hl HN. pose proof (estimates_reach f bounds est N M He) as HR.
  destruct (all_partial f pf bounds est fn fw Hfn Hfw N HR k) as [H _]. eapply run_value; [apply (H limit Hl HN b)|].
  - exact (history_inv f pf bounds ops b Hops Hh).
  - intros [p b'] Hp. apply Hp.
Qed.
Theorem C07_prime_pi_returns : forall f pf bounds est fn fw N M limit,
  2 ^ 64 <= fn -> 2 ^ 64 <= fw -> estimates_ok f bounds est N M ->
  (forall i e, 4096 < i <= N -> est i = Ret (Some e) -> e <= i * i) ->
  0 <= limit < 2 ^ 64 - 1 -> prime_count (Z.sqrt limit) <= N ->
  exists k0, forall k ops b, (k0 <= k)%nat -> Forall (op_ok f bounds) ops -> history f pf bounds ops = Ret b ->
  exists b', prime_pi f pf bounds est fn fw k b limit = Ret (prime_count limit, b').
Proof.
  intros f pf bounds est fn fw N M limit Hfn Hfw He Hsq Hl HN. pose proof (estimates_reach f bounds est N M He) as HR.
  destruct (pi_total f pf bounds est fn fw Hfn Hfw N HR Hsq limit Hl HN) as [k0 H]. exists k0. intros k ops b Hk Hops Hh.
  pose proof (H k Hk b (history_inv f pf bounds ops b Hops Hh)) as R. apply run_total in R. destruct R as [[p b'] [E [-> _]]]. eauto.
Qed.
(** Without any assumption on floating point: all limits below 257^2 (8167^2 with big-table); this covers
    the sieve branch (up to 38873, or up to the largest prime in the buffer) and the combinatorial one. *)
Definition table_sq (f : feature) : Z := match f with BigTable => 8167 * 8167 | SmallTable => 257 * 257 end.
Lemma table_sq_count : forall f limit, 0 <= limit < table_sq f -> prime_count (Z.sqrt limit) <= table_len f.
Proof.
  intros f limit H. assert (E : Z.sqrt limit <= SMALL_PRIMES_NEXT f - 1).
  { assert (Z.sqrt limit < SMALL_PRIMES_NEXT f); [|lia]. apply Z.sqrt_lt_square; [lia| |]; rewrite small_next; destruct f; cbn [table_sq] in *; lia. }
  pose proof (pc_mono _ _ E). pose proof (lists_primes_count_lt _ _ (small_primes_list f)) as C. rewrite small_len in C. unfold table_len. lia.
Qed.
Theorem C07_prime_pi_unconditional : forall f pf bounds est fn fw limit,
  2 ^ 64 <= fn -> 2 ^ 64 <= fw -> 0 <= limit < table_sq f ->
  exists k0, forall k ops b, (k0 <= k)%nat -> Forall (op_ok f bounds) ops -> history f pf bounds ops = Ret b ->
  exists b', prime_pi f pf bounds est fn fw k b limit = Ret (prime_count limit, b').
Proof.
  intros f pf bounds est fn fw limit Hfn Hfw Hl.
  assert (Hsq : forall i e, 4096 < i <= table_len f -> est i = Ret (Some e) -> e <= i * i) by (intros i e H; exfalso; destruct f; cbn [table_len] in H; lia).
  destruct (pi_total f pf bounds est fn fw Hfn Hfw (table_len f) (table_reach f bounds est) Hsq limit) as [k0 H]; [destruct f; cbn [table_sq] in Hl; lia | apply table_sq_count, Hl|].
  exists k0. intros k ops b Hk Hops Hh.
  pose proof (H k Hk b (history_inv f pf bounds ops b Hops Hh)) as R. apply run_total in R. destruct R as [[p b'] [E [-> _]]]. eauto.
Qed.
(** For u64::MAX a debug build never returns a value: (x + 1) / 2 in prime_phi overflows. *)
Theorem C07_u64_max_refuted : forall f bounds est fn fw ops b k,
  Forall (op_ok f bounds) ops -> history f Debug bounds ops = Ret b ->
  prime_pi f Debug bounds est fn fw k b (2 ^ 64 - 1) = Panic \/ prime_pi f Debug bounds est fn fw k b (2 ^ 64 - 1) = NoFuel.
Proof.
  intros f bounds est fn fw ops b k Hops Hh. apply pi_overflow. exact (history_inv f Debug bounds ops b Hops Hh).
Qed.

(** ** C08 *)
Definition consistent_cache (c : list ((Z * Z) * Z)) : Prop := forall x a v, In ((x, a), v) c -> v = legendre_phi x a.
Theorem C08_prime_phi : forall f pf bounds est fn fw N M ops b k x a cap cache,
  2 ^ 64 <= fn -> 2 ^ 64 <= fw -> estimates_ok f bounds est N M ->
  Forall (op_ok f bounds) ops -> history f pf bounds ops = Ret b ->
  0 <= x < 2 ^ 64 - 1 -> 1 <= a <= N -> a < 2 ^ 64 -> consistent_cache cache ->
  value_is (prime_phi f pf bounds est fn fw k b x a cap cache) (fun '(r, _, cache') => r = legendre_phi x a /\ consistent_cache cache').
Proof.
  intros f pf bounds est fn fw N M ops b k x a cap cache Hfn Hfw He Hops Hh Hx Ha Ha2 Hc. pose proof (estimates_reach f bounds est N M He) as HR.
  destruct (all_partial f pf bounds est fn fw Hfn Hfw N HR k) as [_ [_ H]]. eapply run_value; [apply (H x a Hx Ha Ha2 b cap cache)|].
  - exact (history_inv f pf bounds ops b Hops Hh).
  - exact Hc.
  - intros [[v b'] c'] [A [_ B]]. split; [exact A | exact B].
Qed.
Theorem C08_prime_phi_unconditional : forall f pf bounds est fn fw x a,
  2 ^ 64 <= fn -> 2 ^ 64 <= fw -> 0 <= x < 2 ^ 64 - 1 -> 1 <= a <= table_len f ->
  exists k0, forall k ops b cap cache, (k0 <= k)%nat -> Forall (op_ok f bounds) ops -> history f pf bounds ops = Ret b -> consistent_cache cache ->
  exists b' cache', prime_phi f pf bounds est fn fw k b x a cap cache = Ret (legendre_phi x a, b', cache') /\ consistent_cache cache'.
Proof.
  intros f pf bounds est fn fw x a Hfn Hfw Hx Ha.
  assert (Hsq : forall i e, 4096 < i <= table_len f -> est i = Ret (Some e) -> e <= i * i) by (intros i e H; exfalso; destruct f; cbn [table_len] in H; lia).
  destruct (phi_total f pf bounds est fn fw Hfn Hfw (table_len f) (table_reach f bounds est) Hsq x a Hx Ha) as [k0 H]; [destruct f; cbn [table_len] in Ha; lia|].
  exists k0. intros k ops b cap cache Hk Hops Hh Hc.
  pose proof (H k Hk b cap cache (history_inv f pf bounds ops b Hops Hh) Hc) as R. apply run_total in R. destruct R as [[[v b'] c'] [E [-> [_ Hc']]]]. eauto.
Qed.
(** a = 0 panics in a debug build (a - 1 underflows; no call ever caches an entry with a = 0). *)
Theorem C08_phi_0_panics : forall f bounds est fn fw k b x cap cache, (forall v, ~ In ((x, 0), v) cache) ->
  prime_phi f Debug bounds est fn fw (S k) b x 0 cap cache = Panic.
Proof.
  intros f bounds est fn fw k b x cap cache Hc. cbn [prime_phi]. replace (0 =? 1) with false by reflexivity.
  unfold lru_get. destruct (lru_find cache (x, 0)) as [v|] eqn:E; [exfalso; apply lru_find_in in E; exact (Hc v E)|]. reflexivity.
Qed.
(** x = u64::MAX never yields a value in a debug build *)
Theorem C08_u64_max_refuted : forall f bounds est fn fw k b a cap,
  prime_phi f Debug bounds est fn fw k b (2 ^ 64 - 1) a cap [] = Panic \/ prime_phi f Debug bounds est fn fw k b (2 ^ 64 - 1) a cap [] = NoFuel.
Proof. intros. apply phi_overflow. intros a' v []. Qed.

(** ** C45: exact values in the table range, at every integer type *)
Theorem C45_prime_pi_bounds_table : forall f t fl x, valid_ity t -> in_range t x -> x <= last (SMALL_PRIMES f) 0 ->
  prime_pi_bounds f t fl x = Ret (prime_count x, prime_count x).
Proof. exact pi_bounds_table. Qed.
Theorem C45_nth_prime_bounds_table : forall f t fl n p, 1 <= n <= Z.of_nat (length (SMALL_PRIMES f)) -> nth_prime_is n p -> in_range t p ->
  nth_prime_bounds f t fl n = Ret (Some (p, p)).
Proof. intros f t fl n p Hn Hp. apply (proj1 (nth_bounds_table f t fl n p Hn Hp)). Qed.
Theorem C45_nth_prime_bounds_0 : forall f t fl, nth_prime_bounds f t fl 0 = Ret (Some (0, 0)).
Proof. reflexivity. Qed.
Theorem C45_prime_pi_est_table : forall f pf t fl fl2 x, valid_ity t -> in_range t x -> x <= last (SMALL_PRIMES f) 0 ->
  (f = SmallTable -> in_range t (2 * prime_count x)) -> prime_pi_est f pf t fl fl2 x = Ret (prime_count x).
Proof. exact pi_est_table. Qed.
(** "If the result is larger than maximum of T, None will be returned": in the table range it panics. *)
Theorem C45_none_refuted : forall f t fl n p, 1 <= n <= Z.of_nat (length (SMALL_PRIMES f)) -> nth_prime_is n p -> ~ in_range t p ->
  nth_prime_bounds f t fl n = Panic.
Proof. intros f t fl n p Hn Hp. apply (proj2 (nth_bounds_table f t fl n p Hn Hp)). Qed.

(** ** C46: for every bracket and every estimate of pi the bisection ends inside the bracket *)
Theorem C46_nth_prime_est_in_bracket : forall f pf t fuel bounds pi_est target lo hi,
  nth_prime_bounds f t bounds target = Ret (Some (lo, hi)) -> 0 <= lo <= hi -> in_range t (2 * hi) ->
  (forall x, lo <= x <= hi -> exists v, pi_est x = Ret v) -> hi - lo < fuel ->
  exists r, nth_prime_est f pf t fuel bounds pi_est target = Ret (Some r) /\ lo <= r <= hi.
Proof. exact nth_est_bracket. Qed.
Theorem C46_nth_prime_est_table : forall f pf t fuel bounds pi_est n p, 1 <= n <= Z.of_nat (length (SMALL_PRIMES f)) -> nth_prime_is n p -> in_range t p ->
  nth_prime_est f pf t fuel bounds pi_est n = Ret (Some p).
Proof.
  intros f pf t fuel bounds pi_est n p Hn Hp Hr. unfold nth_prime_est. rewrite (C45_nth_prime_bounds_table f t bounds n p Hn Hp Hr). cbn [bind]. rewrite Z.eqb_refl. reflexivity.
Qed.
Theorem C46_none : forall f pf t fuel bounds pi_est n, nth_prime_bounds f t bounds n = Ret None -> nth_prime_est f pf t fuel bounds pi_est n = Ret None.
Proof. intros f pf t fuel bounds pi_est n H. unfold nth_prime_est. rewrite H. reflexivity. Qed.
(** so nth_prime needs of the floating point code only brackets: any bracket in 3..M will do *)
Theorem C46_estimates_from_brackets : forall f pf bounds pi_est fuel N M,
  prime_count (Z.sqrt M) <= N <= prime_count M -> M < 2 ^ 63 -> M < fuel -> (forall x, 3 <= x <= M -> exists v, pi_est x = Ret v) ->
  (forall n, Z.of_nat (length (SMALL_PRIMES f)) < n <= N -> exists lo hi, bounds n = Some (lo, hi) /\ 3 <= lo <= hi /\ hi <= M /\ (n <= 4096 -> n <= prime_count hi /\ hi < 2 ^ 32)) ->
  (4096 < N -> forall m, 2 <= m <= M -> is_prime64 f Debug m = Ret true -> prime m) ->
  estimates_ok f bounds (nth_prime_est f pf u64 fuel bounds pi_est) N M.
Proof.
  intros f pf bounds pi_est fuel N M HN HM Hf Hpi Hb Hs. split; [exact HN|]. split; [lia|]. pose proof (small_len f) as Hlen. split; [|split; [|exact Hs]].
  - intros n Hn HnN. destruct (Hb n ltac:(lia)) as [lo [hi [E [A [B C]]]]]. exists lo, hi. specialize (C ltac:(lia)). split; [exact E|]. split; [apply C | lia].
  - intros n Hn. destruct (Hb n ltac:(destruct f; lia)) as [lo [hi [E [A [B C]]]]].
    destruct (nth_est_bracket f pf u64 fuel bounds pi_est n lo hi) as [r [Er Hr]]; [rewrite nth_prime_bounds_u64, E by (destruct f; lia); reflexivity | lia | rng | intros x Hx; apply Hpi; lia | lia|].
    exists r. split; [exact Er | lia].
Qed.

(** ** C01 with the counting calls in the history *)
Inductive op2 :=
| OBuf (o : op)
| ONthPrime (n : Z)
| OPrimePi (limit : Z)
| OPrimePhi (x a cap : Z) (cache : list ((Z * Z) * Z)).
Definition apply_op2 (f : feature) (pf : profile) (bounds : Z -> option (Z * Z)) (est : Z -> res (option Z)) (fn fw : Z) (k : nat) (b : buffer) (o : op2) : res buffer :=
  match o with
  | OBuf o => apply_op f pf bounds b o
  | ONthPrime n => '(_, b') <- nth_prime f pf bounds est fn fw k b n ;; Ret b'
  | OPrimePi l => '(_, b') <- prime_pi f pf bounds est fn fw k b l ;; Ret b'
  | OPrimePhi x a cap cache => '(_, b', _) <- prime_phi f pf bounds est fn fw k b x a cap cache ;; Ret b'
  end.
Definition history2 f pf bounds est fn fw k (l : list op2) : res buffer := foldM (apply_op2 f pf bounds est fn fw k) l (buf_new f).
Definition op2_ok (f : feature) (bounds : Z -> option (Z * Z)) (N : Z) (o : op2) : Prop :=
  match o with
  | OBuf o => op_ok f bounds o
  | ONthPrime n => 1 <= n <= N
  | OPrimePi l => 0 <= l < 2 ^ 64 - 1 /\ prime_count (Z.sqrt l) <= N
  | OPrimePhi x a cap cache => 0 <= x < 2 ^ 64 - 1 /\ 1 <= a <= N /\ a < 2 ^ 64 /\ consistent_cache cache
  end.
Theorem C01_history_with_counting : forall f pf bounds est fn fw N M k ops,
  2 ^ 64 <= fn -> 2 ^ 64 <= fw -> estimates_ok f bounds est N M -> Forall (op2_ok f bounds N) ops ->
  value_is (history2 f pf bounds est fn fw k ops) (fun b => exists B, buf_bound b = Ret B /\ 53 <= B /\ lists_primes (buf_iter b) (fun p => p <= B)).
Proof.
  intros f pf bounds est fn fw N M k ops Hfn Hfw He Hops. pose proof (estimates_reach f bounds est N M He) as HR. destruct (all_partial f pf bounds est fn fw Hfn Hfw N HR k) as [H1 [H2 H3]].
  assert (G : forall b, inv b -> run False True inv (foldM (apply_op2 f pf bounds est fn fw k) ops b)).
  { induction Hops as [|o ops Ho Hops IH]; intros b Hb; cbn [foldM]; [exact Hb|]. apply run_bind. eapply run_mono with (Q := inv); [|exact (fun h => h)|exact (fun h => h)|].
    2:{ intros b' Hb'. apply IH, Hb'. }
    destruct o as [o|n|l|x a cap cache]; cbn [apply_op2 op2_ok] in *.
    - destruct Hb as [Hb Hn]. destruct (apply_op_ok f pf bounds b o Hb Hn Ho) as [b' [-> X]]. exact X.
    - apply run_bind. eapply run_mono; [apply (H2 n Ho b Hb) | exact (fun h => h) | exact (fun h => h)|]. intros [p b'] X. apply X.
    - apply run_bind. eapply run_mono; [apply (H1 l (proj1 Ho) (proj2 Ho) b Hb) | exact (fun h => h) | exact (fun h => h)|]. intros [p b'] X. apply X.
    - destruct Ho as [A [B [C D]]]. apply run_bind. eapply run_mono; [apply (H3 x a A B C b cap cache Hb D) | exact (fun h => h) | exact (fun h => h)|]. intros [[p b'] c'] X. apply X. }
  unfold history2. eapply run_value; [apply G; split; [apply buf_new_ok | destruct f; vm_compute; congruence]|].
  intros b [Hb Hn]. destruct (buf_bound_spec b Hb) as [B [EB [HBp [HBn HBm]]]]. exists B. split; [exact EB|]. split.
  - apply HBm; [apply primeb_spec; vm_compute; reflexivity|]. destruct Hb as [_ [_ Hb]]. lia.
  - apply buf_ok_bound_list; assumption.
Qed.

(** ** Concrete cases *)
Definition got {A B} (m : res (A * B)) : option A := match m with Ret (v, _) => Some v | _ => None end.
Example C06_case : got (nth_prime BigTable Debug (fun _ => None) (fun _ => Panic) (2 ^ 64) (2 ^ 64) 1 (buf_new BigTable) 1000) = Some 7919.
Proof. vm_compute. reflexivity. Qed.
Definition ex_est (n : Z) : res (option Z) := Ret (Some 38800).
Example C06_case_walk : got (nth_prime BigTable Debug (fun _ => None) ex_est (2 ^ 64) (2 ^ 64) 3 (buf_new BigTable) 4097) = Some 38891.
Proof. vm_compute. reflexivity. Qed.
Example C06_estimates_ok : estimates_ok SmallTable (fun n => Some (2, 300)) (fun _ => Panic) 60 300.
Proof.
  split; [split; vm_compute; congruence|]. split; [lia|]. split; [|split; [intros; lia | intros; lia]].
  intros n H1 H2. exists 2, 300. split; [reflexivity|]. split; [|lia]. assert (60 <= prime_count 300) by (vm_compute; congruence). lia.
Qed.
Example C07_case : got (prime_pi BigTable Debug (fun _ => None) (fun _ => Panic) (2 ^ 64) (2 ^ 64) 12 (buf_new BigTable) 100000) = Some 9592.
Proof. vm_compute. reflexivity. Qed.
Example C08_case : option_map fst (got (prime_phi BigTable Debug (fun _ => None) (fun _ => Panic) (2 ^ 64) (2 ^ 64) 9 (buf_new BigTable) 1000 4 2 [])) = Some 228 /\ legendre_phi 30 2 = 10.
Proof. split; vm_compute; reflexivity. Qed.
Example C45_case : prime_pi_bounds BigTable (U 16) (fun _ => None) 8000 = Ret (1007, 1007) /\ nth_prime_bounds BigTable (U 16) (fun _ => None) 1000 = Ret (Some (7919, 7919))
  /\ nth_prime_bounds BigTable (U 8) (fun _ => None) 55 = Panic.
Proof. repeat split; vm_compute; reflexivity. Qed.
Example C46_case : nth_prime_est BigTable Debug u64 100000 (fun _ => Some (40000, 50000)) (fun x => Ret (x / 10)) 4500 = Ret (Some 45000)
  /\ nth_prime_est BigTable Debug u64 100000 (fun _ => Some (40000, 50000)) (fun x => Ret 0) 4500 = Ret (Some 49999).
Proof. split; vm_compute; reflexivity. Qed.
Example C01_case : Forall (op2_ok SmallTable (fun n => Some (2, 300)) 60) [OBuf (OReserve 100); ONthPrime 60; OPrimePi 70000; OBuf OClear; OPrimePhi 1000 5 3 [((10, 2), 3)]]
  /\ match history2 SmallTable Debug (fun n => Some (2, 300)) (fun _ => Panic) (2 ^ 64) (2 ^ 64) 8 [OBuf (OReserve 100); ONthPrime 60; OPrimePi 70000; OBuf OClear; OPrimePhi 1000 5 3 [((10, 2), 3)]] with Ret b => Z.of_nat (length (b_list b)) | _ => 0 end = 16.
Proof.
  split.
  - repeat constructor; cbn [op2_ok op_ok]; try lia.
    + vm_compute. congruence.
    + intros x a v [H|[]]. injection H as <- <- <-. vm_compute. reflexivity.
  - vm_compute. reflexivity.
Qed.

Print Assumptions C01_history_with_counting.
Print Assumptions C06_nth_prime.
Print Assumptions C06_nth_prime_returns.
Print Assumptions C06_nth_prime_table.
Print Assumptions C06_nth_prime_0_panics.
Print Assumptions C07_prime_pi.
Print Assumptions C07_prime_pi_returns.
Print Assumptions C07_prime_pi_unconditional.
Print Assumptions C07_u64_max_refuted.
Print Assumptions C08_prime_phi.
Print Assumptions C08_prime_phi_unconditional.
Print Assumptions C08_phi_0_panics.
Print Assumptions C08_u64_max_refuted.
Print Assumptions C45_prime_pi_bounds_table.
Print Assumptions C45_nth_prime_bounds_table.
Print Assumptions C45_nth_prime_bounds_0.
Print Assumptions C45_prime_pi_est_table.
Print Assumptions C45_none_refuted.
Print Assumptions C46_nth_prime_est_in_bracket.
Print Assumptions C46_nth_prime_est_table.
Print Assumptions C46_none.
Print Assumptions C46_estimates_from_brackets.
