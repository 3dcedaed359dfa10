(** * Proofs about next_prime, prev_prime and is_safe_prime (src/nt_funcs.rs:799-958). *)
From Coq Require Import ZArith Znumtheory List Lia Bool Sorted.
From Verif Require Import Base Tables Spec Ext NT PBase PTables MInteger PInteger Ops POps MPrimality MTraits PSprp MFactor MSieve MIsPrime PBuffer PIsPrime PIsPrime2 PropIsPrime NTPock.
Import ListNotations.
Local Open Scope Z_scope.

(** ** Wheel tables *)
(** entry [off] at residue [i]: the next (previous) residue coprime to the wheel is [off] away *)
Definition jump_ok (f : feature) (s i off : Z) : bool :=
  (0 <? off) && (off <? 256) && (Z.gcd (i + s * off) (WHEEL_SIZE f) =? 1) && forallb (fun d => negb (Z.gcd (i + s * d) (WHEEL_SIZE f) =? 1)) (range_from (Z.to_nat (off - 1)) 1 1).
Definition jump_table (f : feature) (s : Z) (tab : list Z) : bool :=
  forallb (fun '(i, off) => jump_ok f s i off) (combine (range_from (Z.to_nat (WHEEL_SIZE f)) 0 1) tab).
Lemma jump_tables : forall f, jump_table f 1 (WHEEL_NEXT f) = true /\ jump_table f (-1) (WHEEL_PREV f) = true /\
  Z.of_nat (length (WHEEL_NEXT f)) = WHEEL_SIZE f /\ Z.of_nat (length (WHEEL_PREV f)) = WHEEL_SIZE f.
Proof. intros [|]; (split; [|split; [|split]]); vm_compute; reflexivity. Qed.

Lemma nth_range : forall n i a, (i < n)%nat -> nth i (range_from n a 1) 0 = a + Z.of_nat i.
Proof. induction n as [|n IH]; intros i a Hi; [lia|]. destruct i as [|i]; cbn [range_from nth]; [lia|]. rewrite IH; lia. Qed.
Lemma in_range_from : forall n a x, a <= x < a + Z.of_nat n -> In x (range_from n a 1).
Proof. intros n a x H. replace x with (nth (Z.to_nat (x - a)) (range_from n a 1) 0) by (rewrite nth_range; lia). apply nth_In. rewrite range_from_length. lia. Qed.

Lemma gcd_shift : forall f x s, Z.gcd (x mod WHEEL_SIZE f + s) (WHEEL_SIZE f) = Z.gcd (x + s) (WHEEL_SIZE f).
Proof.
  intros f x s. pose proof (wheel_size_pos f). rewrite (Z.gcd_comm (x mod WHEEL_SIZE f + s)), (Z.gcd_comm (x + s)). rewrite <- (Z.gcd_mod (x mod WHEEL_SIZE f + s)), <- (Z.gcd_mod (x + s)) by lia. rewrite Z.add_mod_idemp_l by lia. reflexivity.
Qed.
Lemma jump_spec : forall f s tab x, jump_table f s tab = true -> Z.of_nat (length tab) = WHEEL_SIZE f ->
  exists off, index tab (x mod WHEEL_SIZE f) = Ret off /\ 0 < off < 256 /\ (forall d, 0 < d < off -> Z.gcd (x + s * d) (WHEEL_SIZE f) <> 1).
Proof.
  intros f s tab x T L. pose proof (wheel_size_pos f) as W. pose proof (Z.mod_pos_bound x (WHEEL_SIZE f) ltac:(lia)) as B. set (i := x mod WHEEL_SIZE f) in *.
  exists (nth (Z.to_nat i) tab 0). split; [apply index_ok; lia|]. unfold jump_table in T. rewrite forallb_forall in T.
  specialize (T (i, nth (Z.to_nat i) tab 0)). cbv beta iota in T. unfold jump_ok in T. rewrite !andb_true_iff, !Z.ltb_lt in T. destruct T as [[[T1 T2] _] T3].
  { replace (i, nth (Z.to_nat i) tab 0) with (nth (Z.to_nat i) (combine (range_from (Z.to_nat (WHEEL_SIZE f)) 0 1) tab) (0, 0)) by (rewrite combine_nth by (rewrite range_from_length; lia); rewrite nth_range by lia; f_equal; lia).
    apply nth_In. rewrite combine_length, range_from_length. lia. }
  split; [lia|]. intros d Hd C. rewrite forallb_forall in T3. specialize (T3 d ltac:(apply in_range_from; lia)). apply negb_true_iff, Z.eqb_neq in T3. apply T3. unfold i. rewrite gcd_shift. exact C.
Qed.
Lemma next_jump : forall f x, exists off, index (WHEEL_NEXT f) (x mod WHEEL_SIZE f) = Ret off /\ 0 < off < 256 /\ (forall q, x < q < x + off -> Z.gcd q (WHEEL_SIZE f) <> 1).
Proof.
  intros f x. destruct (jump_tables f) as [T [_ [L _]]]. destruct (jump_spec f 1 _ x T L) as [off [E [B H]]]. exists off. split; [exact E|]. split; [exact B|].
  intros q Hq. specialize (H (q - x) ltac:(lia)). replace (x + 1 * (q - x)) with q in H by lia. exact H.
Qed.
Lemma prev_jump : forall f x, exists off, index (WHEEL_PREV f) (x mod WHEEL_SIZE f) = Ret off /\ 0 < off < 256 /\ (forall q, x - off < q < x -> Z.gcd q (WHEEL_SIZE f) <> 1).
Proof.
  intros f x. destruct (jump_tables f) as [_ [T [_ L]]]. destruct (jump_spec f (-1) _ x T L) as [off [E [B H]]]. exists off. split; [exact E|]. split; [exact B|].
  intros q Hq. specialize (H (x - q) ltac:(lia)). replace (x + -1 * (x - q)) with q in H by lia. exact H.
Qed.
Lemma wheel_prime' : forall f q, prime q -> 13 <= q -> Z.gcd q (WHEEL_SIZE f) = 1.
Proof.
  intros f p Hp H. apply Zgcd_1_rel_prime. apply prime_rel_prime; [exact Hp|]. intros C.
  assert (G : forall q, prime q -> (p | q) -> q <= 11 -> False).
  { intros q Hq Hd Hle. apply prime_divides_prime in Hd; auto. subst. lia. }
  assert (P2 := prime_2). assert (P3 := prime_3). assert (P5 : prime 5) by (apply primeb_spec; reflexivity). assert (P7 : prime 7) by (apply primeb_spec; reflexivity). assert (P11 : prime 11) by (apply primeb_spec; reflexivity).
  assert (D : (p | 2 * (3 * (5 * (7 * 11))))).
  { destruct f; [exact C | change (2 * (3 * (5 * (7 * 11)))) with (WHEEL_SIZE SmallTable * 77); apply Z.divide_mul_l; exact C]. }
  apply prime_mult in D; [|exact Hp]. destruct D as [D|D]; [apply (G 2 P2 D); lia|].
  apply prime_mult in D; [|exact Hp]. destruct D as [D|D]; [apply (G 3 P3 D); lia|].
  apply prime_mult in D; [|exact Hp]. destruct D as [D|D]; [apply (G 5 P5 D); lia|].
  apply prime_mult in D; [|exact Hp]. destruct D as [D|D]; [apply (G 7 P7 D); lia | apply (G 11 P11 D); lia].
Qed.

Lemma valid_byte : forall t x, valid_ity t -> 0 <= x < 256 -> in_range t x.
Proof. intros [w|] x H B; cbn [in_range valid_ity] in *; [|lia]. destruct H as [->|[->|[->|[->| ->]]]]; lia. Qed.

(** ** Primality test results *)
Lemma fresh_skip : forall dr ws w dr', fresh_witness dr ws = Ret (w, dr') -> incl dr' dr.
Proof.
  induction dr as [|x dr IH]; intros ws w dr' E; cbn [fresh_witness] in E; [discriminate|]. destruct (existsb _ ws); [intros y Hy; right; exact (IH _ _ _ E y Hy)|]. injection E as _ <-. intros y Hy. right. exact Hy.
Qed.
Lemma random_skip : forall k dr ws ws' dr', random_witnesses k dr ws = Ret (ws', dr') -> incl dr' dr.
Proof.
  induction k as [|k IH]; intros dr ws ws' dr' E; cbn [random_witnesses] in E; [injection E as _ <-; apply incl_refl|].
  destruct (fresh_witness dr ws) as [[w d]| |] eqn:Ef; try discriminate. cbn [bind] in E. apply fresh_skip in Ef. apply IH in E. eapply incl_tran; eassumption.
Qed.
Lemma is_prime_draws : forall T A f pf (OP : ops T) (PR : probs A) lf buf n c dr r dr', is_prime f pf OP PR lf buf n c dr = Ret (r, dr') -> incl dr' dr.
Proof.
  intros T A f pf OP PR lf buf n c dr r dr' E. unfold is_prime in E. destruct (o_is_even OP n).
  { destruct (o_const OP 2); try discriminate. cbn [bind] in E. destruct (o_eqb OP n a); try discriminate. cbn [bind] in E. injection E as _ <-. apply incl_refl. }
  destruct (_ <? _).
  { destruct (is_prime64 f pf (o_to_z OP n)); try discriminate. cbn [bind] in E. injection E as _ <-. apply incl_refl. }
  match type of E with bind ?x _ = _ => destruct x as [[ws d]| |] eqn:Ed; try discriminate end. cbn [bind] in E.
  assert (Hd : incl d dr).
  { destruct (0 <? sprp_random_trials _); [apply random_skip in Ed; exact Ed | injection Ed as _ <-; apply incl_refl]. }
  match type of E with bind ?x _ = _ => destruct x as [[|]| |]; try discriminate end; cbn [bind negb] in E; [|injection E as _ <-; exact Hd].
  match type of E with bind ?x _ = _ => destruct x as [[|]| |]; try discriminate end; cbn [bind negb] in E; [|injection E as _ <-; exact Hd].
  match type of E with bind ?x _ = _ => destruct x as [[|]| |]; try discriminate end; cbn [bind negb] in E; injection E as _ <-; exact Hd.
Qed.

(** all random witnesses are non-zero (see C13) *)
Definition nonzero_draws (dr : draws) : Prop := forall x, In x dr -> x mod 2 ^ 64 <> 0.
Lemma nonzero_incl : forall d d', incl d' d -> nonzero_draws d -> nonzero_draws d'.
Proof. intros d d' H N x Hx. apply N, H, Hx. Qed.

Section Search.
Variables (f : feature) (pf : profile) (t : ity) (lf : nat) (config : option prime_config).
Hypothesis (Ht : valid_ity t).
Hypothesis (Hlf : Z.of_nat lf <= 2 ^ 31).

Definition accepts (p : Z) : Prop := exists d d', prime_probably f pf t lf p config d = Ret (true, d').

Lemma probably_small : forall x dr, in_range t x -> x < 2 ^ 64 -> prime_probably f pf t lf x config dr = Ret (z_is_prime64 f x, dr).
Proof.
  intros x dr Hx Hs. unfold prime_probably, nt_is_prime. rewrite (is_prime_small f pf _ no_probs t _ _ _ (uops_lawful f pf t) Ht lf _ x x config dr ltac:(split; auto) Hs).
  cbn [bind]. destruct (z_is_prime64 f x); reflexivity.
Qed.
(** a prime is not rejected *)
Lemma probably_prime : forall q dr b dr', in_range t q -> prime q -> Z.log2 (q + 1) < 2 ^ 64 -> nonzero_draws dr \/ q < 2 ^ 64 -> prime_probably f pf t lf q config dr = Ret (b, dr') -> b = true.
Proof.
  intros q dr b dr' Hq Pq Hlog Hdr E. destruct (Z.lt_ge_cases q (2 ^ 64)) as [L|L].
  - rewrite probably_small in E by assumption. injection E as <- _. apply z_is_prime64_complete, Pq.
  - destruct Hdr as [Hdr|]; [|lia]. unfold prime_probably in E. destruct (nt_is_prime f pf (uops f pf t) no_probs lf q config dr) as [[r d]| |] eqn:Er; try discriminate. cbn [bind] in E. injection E as <- _.
    pose proof (C13_is_prime_never_rejects f pf t q unit no_probs lf (buf_iter (buf_new f)) config dr Ht Hq Pq (new_buf_range f) Hdr Hlf Hlog) as H. unfold nt_is_prime in Er. rewrite Er in H. exact H.
Qed.
Lemma probably_draws : forall q dr b dr', prime_probably f pf t lf q config dr = Ret (b, dr') -> incl dr' dr.
Proof.
  intros q dr b dr' E. unfold prime_probably in E. destruct (nt_is_prime f pf (uops f pf t) no_probs lf q config dr) as [[r d]| |] eqn:Er; try discriminate. cbn [bind] in E. injection E as _ <-. eapply is_prime_draws, Er.
Qed.
Lemma prime_accepts : forall q, in_range t q -> prime q -> q < 2 ^ 64 -> accepts q.
Proof. intros q Hq Pq Hs. exists [], []. rewrite probably_small by assumption. rewrite z_is_prime64_complete by exact Pq. reflexivity. Qed.

(** ** next_prime *)
(** [no_prime a b]: no prime strictly between (that the representation can hold) *)
Definition no_prime (a b : Z) : Prop := forall q, prime q -> a < q < b -> 2 ^ 64 <= Z.log2 (q + 1).
Definition dr_ok (dr : draws) : Prop := nonzero_draws dr \/ (forall q, in_range t q -> q < 2 ^ 64).
Lemma dr_ok_incl : forall d d', incl d' d -> dr_ok d -> dr_ok d'.
Proof. intros d d' H [N|N]; [left; eapply nonzero_incl; eassumption | right; exact N]. Qed.
Lemma dr_ok_at : forall d q, dr_ok d -> in_range t q -> nonzero_draws d \/ q < 2 ^ 64.
Proof. intros d q [N|N] H; [left; exact N | right; apply N, H]. Qed.
Definition next_inv (n : Z) (st : Z * Z * draws) : Prop :=
  let '(i, x, dr) := st in i = x mod WHEEL_SIZE f /\ in_range t x /\ n <= x /\ 12 <= x /\ dr_ok dr /\ no_prime n (x + 1).
Definition next_post (n : Z) (x : option Z * draws) : Prop :=
  match fst x with
  | Some p => n < p /\ in_range t p /\ accepts p /\ no_prime n p
  | None => forall q, prime q -> n < q -> in_range t q -> 2 ^ 64 <= Z.log2 (q + 1)
  end.

Lemma next_step_spec : forall n st, next_inv n st -> run True True (fun r => match r with Next st' => next_inv n st' | Done x => next_post n x end) (next_step f pf t lf config st).
Proof.
  intros n [[i x] dr] [-> [Hx [Hn [H12 [Hdr Hno]]]]]. unfold next_step. destruct (next_jump f x) as [off [E [B H]]]. rewrite E. cbn [bind].
  rewrite from_prim_ok by (apply valid_byte; [exact Ht | lia]).
  cbn [unwrap bind].
  assert (Hstep : forall q, prime q -> n < q < x + off -> 2 ^ 64 <= Z.log2 (q + 1)).
  { intros q Pq Hq. destruct (Z.lt_ge_cases q (x + 1)) as [L|L]; [apply (Hno q Pq); lia|]. exfalso. apply (H q); [lia | apply wheel_prime'; [exact Pq | lia]]. }
  destruct (checked t (x + off)) as [x'|] eqn:Ec.
  - apply checked_inv in Ec. destruct Ec as [-> Hr]. unfold ext_addm. pose proof (wheel_size_pos f). rewrite rem_ok by lia. cbn [bind].
    destruct (prime_probably f pf t lf (x + off) config dr) as [[b dr']| |] eqn:Ep; cbn [bind run]; try exact I. destruct b; cbn [run].
    + unfold next_post. cbn [fst]. split; [lia|]. split; [exact Hr|]. split; [exists dr, dr'; exact Ep | exact Hstep].
    + split; [rewrite Z.add_mod_idemp_l by lia; reflexivity|]. split; [exact Hr|]. split; [lia|]. split; [lia|]. split; [eapply dr_ok_incl; [eapply probably_draws, Ep | exact Hdr]|].
      intros q Pq Hq. destruct (Z.eq_dec q (x + off)) as [->|]; [|apply Hstep; [exact Pq | lia]].
      destruct (Z.lt_ge_cases (Z.log2 (x + off + 1)) (2 ^ 64)) as [L|L]; [|exact L]. exfalso. pose proof (probably_prime (x + off) dr false dr' Hr Pq L (dr_ok_at dr _ Hdr Hr) Ep). discriminate.
  - cbn [run]. unfold next_post. cbn [fst]. intros q Pq Hq Hr. destruct (Z.lt_ge_cases q (x + off)) as [L|L]; [apply Hstep; [exact Pq | lia]|].
    exfalso. apply checked_none in Ec; apply Ec. eapply in_range_le; [|exact Hr]. pose proof (in_range_nonneg _ _ Hx). lia.
Qed.

(** the table part *)
Lemma small_prime_64 : forall g p, In p (SMALL_PRIMES g) -> p < 2 ^ 64.
Proof. intros g p H. apply small_primes_lt in H. rewrite small_next in H. destruct g; lia. Qed.
Lemma index_inv : forall (l : list Z) i p, index l i = Ret p -> 0 <= i /\ nth_error l (Z.to_nat i) = Some p.
Proof. intros l i p E. unfold index in E. destruct (Z.ltb_spec i 0) as [L|L]; [discriminate|]. destruct (nth_error l (Z.to_nat i)) as [x|]; [injection E as <-; auto | discriminate]. Qed.
Lemma skipn_cons : forall (l : list Z) k p, nth_error l k = Some p -> skipn k l = p :: skipn (S k) l.
Proof. induction l as [|x l IH]; intros [|k] p E; cbn [nth_error skipn] in *; try discriminate; [injection E as ->; reflexivity | rewrite (IH k p E); reflexivity]. Qed.
Lemma sorted_skipn : forall (l : list Z) k, StronglySorted Z.lt l -> StronglySorted Z.lt (skipn k l).
Proof. induction l as [|x l IH]; intros [|k] H; cbn [skipn]; try assumption. apply IH. inversion H; assumption. Qed.
Lemma sorted_cons_le : forall (p q : Z) l, StronglySorted Z.lt (p :: l) -> In q (p :: l) -> p <= q.
Proof. intros p q l H [->|Hq]; [lia|]. inversion H as [|a b _ Hf]; subst. rewrite Forall_forall in Hf. specialize (Hf q Hq). lia. Qed.

Lemma table_next : forall n p, (exists k, bsearch (SMALL_PRIMES f) n = Found k /\ nth_error (SMALL_PRIMES f) (S k) = Some p) \/ (exists k, bsearch (SMALL_PRIMES f) n = NotFound k /\ nth_error (SMALL_PRIMES f) k = Some p) -> least_prime_above n p.
Proof.
  intros n p H. destruct (small_primes_list f) as [Hs Hl]. set (l := SMALL_PRIMES f) in *. pose proof (bsearch_split l n Hs) as Sp. cbv zeta in Sp.
  assert (Hp : prime p /\ p < SMALL_PRIMES_NEXT f) by (apply Hl; destruct H as [[k [_ H]]|[k [_ H]]]; eapply nth_error_In; exact H).
  assert (Hin : forall q, prime q -> q < p -> In q l) by (intros q Pq Hq; apply Hl; split; [exact Pq | lia]).
  destruct H as [[k [Eb H]]|[k [Eb H]]]; rewrite Eb in Sp; destruct Sp as [S1 S2].
  - destruct (bsearch_found l n k Hs Eb) as [En _]. pose proof (skipn_cons l k n En) as E1. pose proof (skipn_cons l (S k) p H) as E2. pose proof (sorted_skipn l k Hs) as Hsk. rewrite E1, E2 in Hsk.
    assert (Hnp : n < p) by (inversion Hsk as [|a b _ Hf]; subst; inversion Hf; assumption).
    split; [apply Hp|]. split; [exact Hnp|]. intros q Pq Hq. destruct (Z.le_gt_cases p q) as [|L]; [assumption|]. specialize (Hin q Pq L).
    rewrite <- (firstn_skipn k l) in Hin. apply in_app_or in Hin. destruct Hin as [Hin|Hin]; [apply S1 in Hin; lia|]. rewrite E1, E2 in Hin. destruct Hin as [->|Hin]; [lia|].
    inversion Hsk as [|a b Hs' _]; subst. exact (sorted_cons_le p q _ Hs' Hin).
  - destruct (bsearch_notfound l n k Hs Eb) as [Nn _]. pose proof (skipn_cons l k p H) as E1. pose proof (sorted_skipn l k Hs) as Hsk. rewrite E1 in Hsk.
    assert (Hnp : n < p). { assert (n <= p) by (apply S2; rewrite E1; left; reflexivity). assert (n <> p) by (intros ->; apply Nn; eapply nth_error_In; exact H). lia. }
    split; [apply Hp|]. split; [exact Hnp|]. intros q Pq Hq. destruct (Z.le_gt_cases p q) as [|L]; [assumption|]. specialize (Hin q Pq L).
    rewrite <- (firstn_skipn k l) in Hin. apply in_app_or in Hin. destruct Hin as [Hin|Hin]; [apply S1 in Hin; lia|]. rewrite E1 in Hin. exact (sorted_cons_le p q _ Hsk Hin).
Qed.
Lemma last_found : forall n k, bsearch (SMALL_PRIMES f) n = Found k -> S k = length (SMALL_PRIMES f) -> f = SmallTable -> least_prime_above n 257.
Proof.
  intros n k Eb Hk Ef. destruct (small_primes_list f) as [Hs Hl]. set (l := SMALL_PRIMES f) in *. destruct (bsearch_found l n k Hs Eb) as [En Hn]. pose proof (proj1 (Hl n) Hn) as [Pn Ln]. pose proof (skipn_cons l k n En) as E1.
  rewrite (skipn_all2 (n := S k)) in E1 by lia. pose proof (bsearch_split l n Hs) as Sp. cbv zeta in Sp. rewrite Eb in Sp. destruct Sp as [S1 S2]. rewrite small_next, Ef in *.
  split; [small_prime|]. split; [lia|]. intros q Pq Hq. destruct (Z.le_gt_cases 257 q) as [|L]; [assumption|].
  assert (Hin : In q l) by (apply Hl; split; [exact Pq | lia]). rewrite <- (firstn_skipn k l) in Hin. apply in_app_or in Hin. destruct Hin as [Hin|Hin]; [apply S1 in Hin; lia|]. rewrite E1 in Hin. destruct Hin as [->|[]]. lia.
Qed.
Lemma least_post : forall n p dr, least_prime_above n p -> p < 2 ^ 64 -> next_post n (from_prim t p, dr).
Proof.
  intros n p dr [Pp [Hn H]] Hs. pose proof (prime_ge2 p Pp). unfold next_post. cbn [fst]. destruct (from_prim t p) as [x|] eqn:E.
  - apply from_prim_inv in E. destruct E as [-> Hr]. split; [exact Hn|]. split; [exact Hr|]. split; [apply prime_accepts; assumption|]. intros q Pq Hq. specialize (H q Pq ltac:(lia)). lia.
  - intros q Pq Hq Hr. exfalso. apply checked_none in E. apply E. specialize (H q Pq Hq). eapply in_range_le; [|exact Hr]. lia.
Qed.

Theorem next_prime_spec : forall fuel n dr, in_range t n -> dr_ok dr -> run True True (next_post n) (next_prime f pf t lf fuel n config dr).
Proof.
  intros fuel n dr Hn Hdr. pose proof (in_range_nonneg _ _ Hn) as Hn0. unfold next_prime.
  assert (Wheel : 12 <= n -> run True True (next_post n) (ws <- unwrap (from_prim t (WHEEL_SIZE f)) ;; i <- rem_ n ws ;; loop fuel (next_step f pf t lf config) (i, n, dr))).
  { intros H12. destruct (from_prim t (WHEEL_SIZE f)) as [ws|] eqn:Ew; cbn [unwrap bind run]; [|exact I]. apply from_prim_inv in Ew. destruct Ew as [-> _]. pose proof (wheel_size_pos f). rewrite rem_ok by lia. cbn [bind].
    apply (run_loop _ _ True True (next_inv n)); [|exact I|].
    - cbn [next_inv]. split; [reflexivity|]. split; [exact Hn|]. split; [lia|]. split; [exact H12|]. split; [exact Hdr|]. intros q _ Hq. lia.
    - apply next_step_spec. }
  destruct f eqn:Ef.
  - destruct (unwrap (from_prim t 255)) as [c| |]; cbn [bind run]; try exact I.
    match goal with |- run _ _ _ (bind ?m _) => destruct m as [b| |] eqn:Eb; cbn [bind run]; try exact I end. destruct b.
    + destruct (bsearch (SMALL_PRIMES BigTable) n) as [k|k] eqn:Es.
      * destruct (index (SMALL_PRIMES BigTable) (Z.of_nat k + 1)) as [p| |] eqn:Ei; cbn [bind run]; try exact I. apply index_inv in Ei. destruct Ei as [_ Ei]. replace (Z.to_nat (Z.of_nat k + 1)) with (S k) in Ei by lia.
        apply least_post; [rewrite <- Ef in *; apply table_next; left; exists k; auto | eapply small_prime_64, nth_error_In, Ei].
      * destruct (index (SMALL_PRIMES BigTable) (Z.of_nat k)) as [p| |] eqn:Ei; cbn [bind run]; try exact I. apply index_inv in Ei. destruct Ei as [_ Ei]. rewrite Nat2Z.id in Ei.
        apply least_post; [rewrite <- Ef in *; apply table_next; right; exists k; auto | eapply small_prime_64, nth_error_In, Ei].
    + apply Wheel. destruct (Z.leb_spec n c) as [L|L]; [discriminate|]. destruct (from_prim t (last (SMALL_PRIMES BigTable) 0)) as [x|] eqn:El; [|discriminate]. apply from_prim_inv in El. destruct El as [-> _]. cbn [unwrap bind] in Eb. injection Eb as Eb.
      apply Z.ltb_ge in Eb. assert (8000 <=? last (SMALL_PRIMES BigTable) 0 = true) as L2 by (vm_compute; reflexivity). apply Z.leb_le in L2. lia.
  - destruct (Z.ltb_spec n 256) as [L|L]; [|apply Wheel; lia]. destruct (bsearch (SMALL_PRIMES SmallTable) n) as [k|k] eqn:Es.
    + destruct (Z.eqb_spec (Z.of_nat k + 1) (Z.of_nat (length (SMALL_PRIMES SmallTable)))) as [El|El].
      * cbn [run]. rewrite small_next. apply least_post; [|lia]. rewrite <- Ef in *. apply (last_found n k Es); [lia | exact Ef].
      * destruct (index (SMALL_PRIMES SmallTable) (Z.of_nat k + 1)) as [p| |] eqn:Ei; cbn [bind run]; try exact I. apply index_inv in Ei. destruct Ei as [_ Ei]. replace (Z.to_nat (Z.of_nat k + 1)) with (S k) in Ei by lia.
        apply least_post; [rewrite <- Ef in *; apply table_next; left; exists k; auto | eapply small_prime_64, nth_error_In, Ei].
    + destruct (index (SMALL_PRIMES SmallTable) (Z.of_nat k)) as [p| |] eqn:Ei; cbn [bind run]; try exact I. apply index_inv in Ei. destruct Ei as [_ Ei]. rewrite Nat2Z.id in Ei.
      apply least_post; [rewrite <- Ef in *; apply table_next; right; exists k; auto | eapply small_prime_64, nth_error_In, Ei].
Qed.

(** ** Termination of next_prime *)
Lemma table_fits : forall n, n < 8161 -> f = BigTable \/ n < 252 -> 0 <= n -> (f = SmallTable -> n < 256) ->
  exists p, least_prime_above n p /\ p < 2 ^ 16 /\ 
   match f with
   | SmallTable => match bsearch (SMALL_PRIMES f) n with
        | Found pos => if Z.of_nat pos + 1 =? Z.of_nat (length (SMALL_PRIMES f)) then Ret (SMALL_PRIMES_NEXT f) else index (SMALL_PRIMES f) (Z.of_nat pos + 1)
        | NotFound pos => index (SMALL_PRIMES f) (Z.of_nat pos) end
   | BigTable => match bsearch (SMALL_PRIMES f) n with Found pos => index (SMALL_PRIMES f) (Z.of_nat pos + 1) | NotFound pos => index (SMALL_PRIMES f) (Z.of_nat pos) end
   end = Ret p.
Proof.
  intros n Hn Hf H0 Hsm. destruct (small_primes_list f) as [Hs Hl].
  assert (P8161 : prime 8161) by (small_prime). assert (P251 : prime 251) by (small_prime).
  assert (Hb : forall p, In p (SMALL_PRIMES f) -> p < 2 ^ 16) by (intros p Hp; apply small_primes_lt in Hp; rewrite small_next in Hp; destruct f; lia).
  assert (Hbig : exists y, In y (SMALL_PRIMES f) /\ n <= y /\ (f = BigTable -> n < y)).
  { destruct f eqn:Ef; [exists 8161 | exists 251]; (split; [apply Hl; rewrite small_next; split; [assumption | lia]|]); (split; [|intros; try discriminate; lia]); [lia | destruct Hf as [C|C]; [discriminate | lia]]. }
  destruct Hbig as [y [Hy [Hny Hlt]]]. pose proof (bsearch_split (SMALL_PRIMES f) n Hs) as Sp. cbv zeta in Sp.
  assert (Hidx : forall k p, nth_error (SMALL_PRIMES f) k = Some p -> index (SMALL_PRIMES f) (Z.of_nat k) = Ret p).
  { intros k p E. unfold index. replace (Z.of_nat k <? 0) with false by (symmetry; apply Z.ltb_ge; lia). rewrite Nat2Z.id, E. reflexivity. }
  destruct (bsearch (SMALL_PRIMES f) n) as [k|k] eqn:Eb; destruct Sp as [S1 S2].
  - destruct (bsearch_found _ _ _ Hs Eb) as [En Hin]. destruct (nth_error (SMALL_PRIMES f) (S k)) as [p|] eqn:Ep.
    + exists p. split; [apply table_next; left; exists k; auto|]. split; [apply Hb; eapply nth_error_In, Ep|].
      assert (Hneq : (Z.of_nat k + 1 =? Z.of_nat (length (SMALL_PRIMES f))) = false) by (apply Z.eqb_neq; assert (S k < length (SMALL_PRIMES f))%nat by (apply nth_error_Some; congruence); lia).
      rewrite Hneq. replace (Z.of_nat k + 1) with (Z.of_nat (S k)) by lia. rewrite (Hidx (S k) p Ep). destruct f; reflexivity.
    + assert (Hk : S k = length (SMALL_PRIMES f)) by (apply nth_error_None in Ep; assert (k < length (SMALL_PRIMES f))%nat by (apply nth_error_Some; congruence); lia).
      destruct f eqn:Ef.
      * exfalso. specialize (Hlt eq_refl). rewrite <- (firstn_skipn k (SMALL_PRIMES BigTable)) in Hy. apply in_app_or in Hy. destruct Hy as [Hy|Hy]; [apply S1 in Hy; lia|].
        rewrite (skipn_cons _ k n En), skipn_all2 in Hy by lia. destruct Hy as [Hy|[]]. lia.
      * exists 257. rewrite <- Ef in *. split; [apply (last_found n k Eb Hk Ef)|]. split; [lia|]. replace (Z.of_nat k + 1 =? Z.of_nat (length (SMALL_PRIMES f))) with true by (symmetry; apply Z.eqb_eq; lia). rewrite small_next, Ef. reflexivity.
  - destruct (nth_error (SMALL_PRIMES f) k) as [p|] eqn:Ep.
    + exists p. split; [apply table_next; right; exists k; auto|]. split; [apply Hb; eapply nth_error_In, Ep|]. rewrite (Hidx k p Ep). destruct f; reflexivity.
    + exfalso. apply nth_error_None in Ep. rewrite firstn_all2 in S1 by exact Ep. specialize (S1 y Hy). lia.
Qed.

Definition table_gap (n : Z) : Prop := f = SmallTable /\ 252 <= n <= 255.
Lemma next_prime_cases : forall fuel n dr, in_range t n -> ~ table_gap n ->
  (exists p, least_prime_above n p /\ p < 2 ^ 16 /\ next_prime f pf t lf fuel n config dr = Ret (from_prim t p, dr)) \/
  (251 < n /\ in_range t (WHEEL_SIZE f) /\ next_prime f pf t lf fuel n config dr = loop fuel (next_step f pf t lf config) (n mod WHEEL_SIZE f, n, dr)).
Proof.
  intros fuel n dr Hn Hg. pose proof (in_range_nonneg _ _ Hn) as H0. pose proof (table_fits n) as T. unfold next_prime. destruct f eqn:Ef.
  - rewrite (from_prim_ok t 255) by (apply valid_byte; [exact Ht | lia]). cbn [unwrap bind]. assert (El : last (SMALL_PRIMES BigTable) 0 = 8161) by (vm_compute; reflexivity). rewrite El.
    destruct (Z.leb_spec n 255) as [L|L]; cbn [bind].
    + left. destruct T as [p [Hp [Hb E]]]; [lia | left; reflexivity | exact H0 | discriminate|]. exists p. split; [exact Hp|]. split; [exact Hb|]. rewrite E. reflexivity.
    + assert (H81 : in_range t 8161) by (destruct t as [w|]; cbn [in_range valid_ity] in *; [destruct Ht as [->|[->|[->|[->| ->]]]]; lia | lia]).
      rewrite from_prim_ok by exact H81. cbn [unwrap bind]. destruct (Z.ltb_spec n 8161) as [L2|L2].
      * left. destruct T as [p [Hp [Hb E]]]; [lia | left; reflexivity | exact H0 | discriminate|]. exists p. split; [exact Hp|]. split; [exact Hb|]. rewrite E. reflexivity.
      * right. pose proof (wheel_size_pos BigTable). assert (Hw : in_range t (WHEEL_SIZE BigTable)) by (eapply in_range_le; [|exact Hn]; lia). split; [lia|]. split; [exact Hw|].
        rewrite from_prim_ok by exact Hw. cbn [unwrap bind]. rewrite rem_ok by lia. reflexivity.
  - destruct (Z.ltb_spec n 256) as [L|L].
    + left. destruct T as [p [Hp [Hb E]]]; [lia | right; destruct (Z.lt_ge_cases n 252) as [|G]; [assumption | exfalso; apply Hg; split; [reflexivity || exact Ef | lia]] | exact H0 | intros; exact L|]. exists p. split; [exact Hp|]. split; [exact Hb|].
      destruct (bsearch (SMALL_PRIMES SmallTable) n) as [k|k]; [destruct (_ =? _)|]; [injection E as <-; reflexivity | rewrite E; reflexivity | rewrite E; reflexivity].
    + right. pose proof (wheel_size_pos SmallTable). assert (Hw : in_range t (WHEEL_SIZE SmallTable)) by (apply valid_byte; [exact Ht | change (WHEEL_SIZE SmallTable) with 30; lia]). split; [lia|]. split; [exact Hw|].
      rewrite from_prim_ok by exact Hw. cbn [unwrap bind]. rewrite rem_ok by lia. reflexivity.
Qed.

(** machine integers of at most 64 bits: it always returns and consumes no randomness *)
Lemma next_step_small : forall x dr, in_range t x -> (forall y, in_range t y -> y < 2 ^ 64) -> exists off, 0 < off /\
  next_step f pf t lf config (x mod WHEEL_SIZE f, x, dr) =
    Ret (match checked t (x + off) with None => Done (None, dr) | Some x' => if z_is_prime64 f x' then Done (Some x', dr) else Next (x' mod WHEEL_SIZE f, x', dr) end) /\
  (forall q, x < q < x + off -> Z.gcd q (WHEEL_SIZE f) <> 1).
Proof.
  intros x dr Hx Hs. destruct (next_jump f x) as [off [E [B H]]]. exists off. split; [lia|]. split; [|exact H]. unfold next_step. rewrite E. cbn [bind]. rewrite from_prim_ok by (apply valid_byte; [exact Ht | lia]). cbn [unwrap bind].
  destruct (checked t (x + off)) as [x'|] eqn:Ec; [|reflexivity]. apply checked_inv in Ec. destruct Ec as [-> Hr]. unfold ext_addm. pose proof (wheel_size_pos f). rewrite rem_ok by lia. cbn [bind].
  rewrite probably_small by auto. cbn [bind]. rewrite Z.add_mod_idemp_l by lia. destruct (z_is_prime64 f (x + off)); reflexivity.
Qed.
Lemma next_returns_small : forall w fuel n dr, t = U w -> w <= 64 -> in_range t n -> ~ table_gap n -> 2 ^ w - n < fuel -> exists o, next_prime f pf t lf fuel n config dr = Ret (o, dr).
Proof.
  intros w fuel n dr Et Hw Hn Hg Hfuel. destruct (next_prime_cases fuel n dr Hn Hg) as [[p [_ [_ ->]]]|[_ [_ ->]]]; [eauto|].
  assert (Hs : forall y, in_range t y -> y < 2 ^ 64) by (intros y Hy; rewrite Et in Hy; cbn [in_range] in Hy; assert (2 ^ w <= 2 ^ 64) by (apply Z.pow_le_mono_r; lia); lia).
  assert (R : run False False (fun x => snd x = dr) (loop fuel (next_step f pf t lf config) (n mod WHEEL_SIZE f, n, dr))).
  { apply (run_loop_measure _ _ False False (fun '(i, x, d) => i = x mod WHEEL_SIZE f /\ in_range t x /\ d = dr) _ (fun '(i, x, d) => 2 ^ w - x)).
    - auto.
    - rewrite Et in Hn. cbn [in_range] in Hn. lia.
    - intros [[i x] d] [-> [Hx ->]]. destruct (next_step_small x dr Hx Hs) as [off [Ho [-> _]]]. cbn [run]. destruct (checked t (x + off)) as [x'|] eqn:Ec; [|reflexivity].
      apply checked_inv in Ec. destruct Ec as [-> Hr]. destruct (z_is_prime64 f (x + off)); [reflexivity|]. split; [auto|]. rewrite Et in Hr, Hx. cbn [in_range] in Hr, Hx. lia. }
  destruct (loop fuel _ _) as [[o d]| |]; cbn [run snd] in R; [subst; eauto | destruct R | destruct R].
Qed.
(** whatever the draws: the result is above the target, fits, is accepted, and draws are only consumed *)
Lemma next_prime_basic : forall fuel n dr, in_range t n ->
  run True True (fun x => incl (snd x) dr /\ match fst x with Some p => n < p /\ in_range t p /\ accepts p | None => True end) (next_prime f pf t lf fuel n config dr).
Proof.
  intros fuel n dr Hn. assert (D : table_gap n \/ ~ table_gap n) by (unfold table_gap; destruct f; [right; intros [C _]; discriminate|]; destruct (Z.le_gt_cases 252 n); [destruct (Z.le_gt_cases n 255); [left; auto | right; lia] | right; lia]).
  destruct D as [[Ef Hg]|Hg].
  { rewrite Ef. assert (C : n = 252 \/ n = 253 \/ n = 254 \/ n = 255) by lia. destruct C as [->|[->|[->| ->]]]; vm_compute; exact I. }
  destruct (next_prime_cases fuel n dr Hn Hg) as [[p [[Pp [Hp _]] [Hb ->]]]|[_ [_ ->]]].
  { cbn [run fst snd]. split; [apply incl_refl|]. destruct (from_prim t p) as [x|] eqn:E; [|exact I]. apply from_prim_inv in E. destruct E as [-> Hr]. split; [exact Hp|]. split; [exact Hr|]. apply prime_accepts; [exact Hr | exact Pp | lia]. }
  apply (run_loop _ _ True True (fun '(i, x, d) => i = x mod WHEEL_SIZE f /\ in_range t x /\ n <= x /\ incl d dr)); [split; [reflexivity|]; split; [exact Hn|]; split; [lia | apply incl_refl] | exact I|].
  intros [[i x] d] [-> [Hx [Hnx Hd]]]. unfold next_step. destruct (next_jump f x) as [off [E [B H]]]. rewrite E. cbn [bind].
  rewrite from_prim_ok by (apply valid_byte; [exact Ht | lia]). cbn [unwrap bind].
  destruct (checked t (x + off)) as [x'|] eqn:Ec; [|cbn [run fst snd]; auto]. apply checked_inv in Ec. destruct Ec as [-> Hr]. unfold ext_addm. pose proof (wheel_size_pos f). rewrite rem_ok by lia. cbn [bind].
  destruct (prime_probably f pf t lf (x + off) config d) as [[b d']| |] eqn:Ep; cbn [bind run]; try exact I. assert (Hi : incl d' dr) by (eapply incl_tran; [eapply probably_draws, Ep | exact Hd]). destruct b; cbn [run fst snd].
  - split; [exact Hi|]. split; [lia|]. split; [exact Hr|]. exists d, d'. exact Ep.
  - split; [rewrite Zplus_mod_idemp_l; reflexivity|]. split; [exact Hr|]. split; [lia | exact Hi].
Qed.
(** up to 64 bits no randomness is used *)
Lemma next_no_draws : forall fuel n dr, in_range t n -> (forall y, in_range t y -> y < 2 ^ 64) -> run True True (fun x => snd x = dr) (next_prime f pf t lf fuel n config dr).
Proof.
  intros fuel n dr Hn Hs. assert (D : table_gap n \/ ~ table_gap n) by (unfold table_gap; destruct f; [right; intros [C _]; discriminate|]; destruct (Z.le_gt_cases 252 n); [destruct (Z.le_gt_cases n 255); [left; auto | right; lia] | right; lia]).
  destruct D as [[Ef Hg]|Hg].
  { rewrite Ef. assert (C : n = 252 \/ n = 253 \/ n = 254 \/ n = 255) by lia. destruct C as [->|[->|[->| ->]]]; vm_compute; exact I. }
  destruct (next_prime_cases fuel n dr Hn Hg) as [[p [_ [_ ->]]]|[_ [_ ->]]]; [reflexivity|].
  apply (run_loop _ _ True True (fun '(i, x, d) => i = x mod WHEEL_SIZE f /\ in_range t x /\ d = dr)); [auto | exact I|].
  intros [[i x] d] [-> [Hx ->]]. destruct (next_step_small x dr Hx Hs) as [off [Ho [-> _]]]. cbn [run]. destruct (checked t (x + off)) as [x'|] eqn:Ec; [|reflexivity].
  apply checked_inv in Ec. destruct Ec as [-> Hr]. destruct (z_is_prime64 f (x + off)); [reflexivity | auto].
Qed.
(** any type: it returns as soon as some prime below 2^64 lies ahead *)
Lemma next_returns_prime : forall fuel n q dr, in_range t n -> ~ table_gap n -> prime q -> n < q -> in_range t q -> q < 2 ^ 64 -> q - n < fuel -> exists p, next_prime f pf t lf fuel n config dr = Ret (Some p, dr) /\ n < p <= q.
Proof.
  intros fuel n q dr Hn Hg Pq Hnq Hq Hq64 Hfuel. destruct (next_prime_cases fuel n dr Hn Hg) as [[p [[Pp [Hp1 Hp2]] [_ ->]]]|[H251 [_ ->]]].
  - specialize (Hp2 q Pq Hnq). pose proof (prime_ge2 p Pp). rewrite from_prim_ok by (eapply in_range_le; [|exact Hq]; lia). exists p. split; [reflexivity | lia].
  - assert (R : run False False (fun x => snd x = dr /\ exists p, fst x = Some p /\ n < p <= q) (loop fuel (next_step f pf t lf config) (n mod WHEEL_SIZE f, n, dr))).
    { apply (run_loop_measure _ _ False False (fun '(i, x, d) => i = x mod WHEEL_SIZE f /\ in_range t x /\ d = dr /\ n <= x < q) _ (fun '(i, x, d) => q - x)).
      - split; [reflexivity|]. split; [exact Hn|]. split; [reflexivity | lia].
      - lia.
      - intros [[i x] d] [-> [Hx [-> Hb]]]. unfold next_step. destruct (next_jump f x) as [off [E [B H]]]. rewrite E. cbn [bind]. rewrite from_prim_ok by (apply valid_byte; [exact Ht | lia]). cbn [unwrap bind].
        assert (Hle : x + off <= q) by (destruct (Z.le_gt_cases (x + off) q) as [|L]; [assumption | exfalso; apply (H q); [lia | apply wheel_prime'; [exact Pq | lia]]]).
        assert (Hr : in_range t (x + off)) by (eapply in_range_le; [|exact Hq]; pose proof (in_range_nonneg _ _ Hx); lia).
        rewrite (from_prim_ok t (x + off) Hr : checked t (x + off) = Some (x + off)). unfold ext_addm. pose proof (wheel_size_pos f). rewrite rem_ok by lia. cbn [bind]. rewrite probably_small by (auto; lia). cbn [bind].
        destruct (z_is_prime64 f (x + off)) eqn:Ez; cbn [run].
        + split; [reflexivity|]. exists (x + off). split; [reflexivity | lia].
        + assert (x + off <> q) by (intros C; rewrite C, z_is_prime64_complete in Ez by exact Pq; discriminate). split; [|lia]. split; [rewrite Z.add_mod_idemp_l by lia; reflexivity|]. split; [exact Hr|]. split; [reflexivity | lia]. }
    destruct (loop fuel _ _) as [[o d]| |]; cbn [run fst snd] in R; [|destruct R | destruct R]. destruct R as [-> [p [-> Hp]]]. exists p. auto.
Qed.

(** ** prev_prime *)
Definition prev_inv (n : Z) (st : Z * Z * draws) : Prop :=
  let '(i, x, dr) := st in i = x mod WHEEL_SIZE f /\ in_range t x /\ 13 < x <= n /\ dr_ok dr /\ no_prime (x - 1) n.
Definition prev_post (n : Z) (x : option Z * draws) : Prop :=
  match fst x with Some p => 2 <= p < n /\ accepts p /\ no_prime p n | None => n <= 2 end.
Lemma prime13 : prime 13.
Proof. apply primeb_spec. vm_compute. reflexivity. Qed.
(** one pass: [x - off] is the next candidate down, it is at least 13 and skips no prime *)
Lemma prev_step_eq : forall x dr, in_range t x -> 13 < x -> exists off, 0 < off /\ 13 <= x - off /\ (forall q, prime q -> x - off < q < x -> False) /\
  prev_step f pf t lf config (x mod WHEEL_SIZE f, x, dr) = ('(b, dr') <- prime_probably f pf t lf (x - off) config dr ;; Ret (if b then Done (Some (x - off), dr') else Next ((x - off) mod WHEEL_SIZE f, x - off, dr'))).
Proof.
  intros x dr Hx H13. destruct (prev_jump f x) as [off [E [B H]]]. exists off. assert (H13' : 13 <= x - off) by (destruct (Z.le_gt_cases 13 (x - off)) as [|L]; [assumption | exfalso; apply (H 13); [lia | apply wheel_prime'; [apply prime13 | lia]]]).
  split; [lia|]. split; [exact H13'|]. split; [intros q Pq Hq; apply (H q Hq), wheel_prime'; [exact Pq | lia]|]. unfold prev_step. rewrite E. cbn [bind]. rewrite from_prim_ok by (apply valid_byte; [exact Ht | lia]). cbn [unwrap bind].
  rewrite sub_ok by (eapply in_range_le; [|exact Hx]; lia). cbn [bind]. unfold ext_subm. pose proof (wheel_size_pos f). rewrite rem_ok by lia. cbn [bind].
  destruct (prime_probably f pf t lf (x - off) config dr) as [[b dr']| |]; cbn [bind]; try reflexivity. rewrite Zminus_mod_idemp_l. destruct b; reflexivity.
Qed.
Lemma prev_step_spec : forall n st, prev_inv n st -> run True True (fun r => match r with Next st' => prev_inv n st' | Done x => prev_post n x end) (prev_step f pf t lf config st).
Proof.
  intros n [[i x] dr] [-> [Hx [Hb [Hdr Hno]]]]. destruct (prev_step_eq x dr Hx ltac:(lia)) as [off [Ho [H13 [Hq ->]]]].
  assert (Hr : in_range t (x - off)) by (eapply in_range_le; [|exact Hx]; lia).
  assert (Hstep : no_prime (x - off) n).
  { intros q Pq Hq2. destruct (Z.lt_ge_cases q x) as [L|L]; [exfalso; apply (Hq q Pq); lia | apply (Hno q Pq); lia]. }
  destruct (prime_probably f pf t lf (x - off) config dr) as [[b dr']| |] eqn:Ep; cbn [bind run]; try exact I. destruct b.
  - unfold prev_post. cbn [fst]. split; [lia|]. split; [exists dr, dr'; exact Ep | exact Hstep].
  - split; [reflexivity|]. split; [exact Hr|]. split.
    + assert (x - off <> 13); [|lia]. intros C. rewrite C in Ep. rewrite probably_small in Ep; [|rewrite <- C; exact Hr | lia]. rewrite z_is_prime64_complete in Ep by apply prime13. discriminate.
    + split; [eapply dr_ok_incl; [eapply probably_draws, Ep | exact Hdr]|]. intros q Pq Hq2. destruct (Z.eq_dec q (x - off)) as [->|]; [|apply Hstep; [exact Pq | lia]].
      destruct (Z.lt_ge_cases (Z.log2 (x - off + 1)) (2 ^ 64)) as [L|L]; [|exact L]. exfalso. pose proof (probably_prime (x - off) dr false dr' Hr Pq L (dr_ok_at dr _ Hdr Hr) Ep). discriminate.
Qed.
Lemma table_prev : forall n, 3 <= n -> exists p, greatest_prime_below n p /\ match bsearch (SMALL_PRIMES f) n with Found pos => index (SMALL_PRIMES f) (Z.of_nat pos - 1) | NotFound pos => index (SMALL_PRIMES f) (Z.of_nat pos - 1) end = Ret p \/ SMALL_PRIMES_NEXT f <= n.
Proof.
  intros n H3. destruct (Z.le_gt_cases (SMALL_PRIMES_NEXT f) n) as [|L]; [exists 0; right; assumption|].
  destruct (small_primes_list f) as [Hs Hl]. pose proof (bsearch_split (SMALL_PRIMES f) n Hs) as Sp. cbv zeta in Sp. set (l := SMALL_PRIMES f) in *.
  set (k := match bsearch l n with Found k => k | NotFound k => k end) in *. destruct Sp as [S1 S2].
  assert (H2 : In 2 (firstn k l)).
  { assert (In 2 l) as H2 by (apply Hl; split; [apply prime_2 | lia]). rewrite <- (firstn_skipn k l) in H2. apply in_app_or in H2. destruct H2 as [H2|H2]; [exact H2 | apply S2 in H2; lia]. }
  assert (Hk : (0 < k)%nat) by (destruct k; [destruct H2 | lia]).
  assert (Hkl : (k <= length l)%nat) by (unfold k; destruct (bsearch l n) as [j|j] eqn:E; [apply bsearch_found in E; [|exact Hs]; destruct E as [E _]; assert (j < length l)%nat by (apply nth_error_Some; congruence); lia | apply bsearch_notfound in E; [apply E | exact Hs]]).
  destruct (nth_error l (k - 1)) as [p|] eqn:Ep; [|apply nth_error_None in Ep; lia].
  assert (Ei : index l (Z.of_nat k - 1) = Ret p) by (unfold index; replace (Z.of_nat k - 1 <? 0) with false by (symmetry; apply Z.ltb_ge; lia); replace (Z.to_nat (Z.of_nat k - 1)) with (k - 1)%nat by lia; rewrite Ep; reflexivity).
  assert (Ef : firstn k l = firstn (k - 1) l ++ [p]).
  { replace k with (S (k - 1)) at 1 by lia. clear - Ep. revert Ep. generalize (k - 1)%nat. induction l as [|x l IH]; intros [|j] Ep; cbn [nth_error] in Ep; try discriminate; [injection Ep as ->; reflexivity|].
    change (firstn (S (S j)) (x :: l)) with (x :: firstn (S j) l). rewrite (IH j Ep). reflexivity. }
  exists p. left. split.
  - assert (Hpn : p < n) by (apply S1; rewrite Ef; apply in_or_app; right; left; reflexivity). assert (Hpl : In p l) by (eapply nth_error_In, Ep). split; [apply Hl in Hpl; apply Hpl|]. split; [exact Hpn|].
    intros q Pq Hq. assert (Hql : In q l) by (apply Hl; split; [exact Pq | lia]). rewrite <- (firstn_skipn k l) in Hql. apply in_app_or in Hql. destruct Hql as [Hql|Hql]; [|apply S2 in Hql; lia].
    rewrite Ef in Hql. apply in_app_or in Hql. destruct Hql as [Hql|[->|[]]]; [|lia].
    rewrite <- (firstn_skipn k l), Ef in Hs. rewrite <- app_assoc in Hs. apply sorted_app_inv in Hs. destruct Hs as [_ [_ Hlt]]. specialize (Hlt q p Hql (or_introl eq_refl)). lia.
  - unfold k in Ei. destruct (bsearch l n); exact Ei.
Qed.
Lemma prev_prime_cases : forall fuel n dr, in_range t n -> 2 < n ->
  (exists p, greatest_prime_below n p /\ p < 2 ^ 16 /\ prev_prime f pf t lf fuel n config dr = Ret (Some p, dr)) \/
  (251 < n /\ prev_prime f pf t lf fuel n config dr = loop fuel (prev_step f pf t lf config) (n mod WHEEL_SIZE f, n, dr)).
Proof.
  intros fuel n dr Hn H2. unfold prev_prime. replace (n <=? 2) with false by (symmetry; apply Z.leb_gt; lia). destruct (table_prev n ltac:(lia)) as [p Hp]. pose proof (small_next f) as Hx. pose proof (wheel_size_pos f) as Hw.
  assert (Tab : n < SMALL_PRIMES_NEXT f -> (p0 <- match bsearch (SMALL_PRIMES f) n with Found pos => index (SMALL_PRIMES f) (Z.of_nat pos - 1) | NotFound pos => index (SMALL_PRIMES f) (Z.of_nat pos - 1) end ;; c <- unwrap (from_prim t p0) ;; Ret (Some c, dr)) = Ret (Some p, dr) /\ greatest_prime_below n p /\ p < 2 ^ 16).
  { intros L. destruct Hp as [[Hg E]|C]; [|lia]. pose proof Hg as [Pp [Hpn _]]. pose proof (prime_ge2 p Pp). rewrite E. cbn [bind]. rewrite from_prim_ok by (eapply in_range_le; [|exact Hn]; lia). cbn [unwrap bind]. split; [reflexivity|]. split; [exact Hg|]. destruct f; lia. }
  assert (Wh : in_range t (WHEEL_SIZE f) -> (ws <- unwrap (from_prim t (WHEEL_SIZE f)) ;; i <- rem_ n ws ;; loop fuel (prev_step f pf t lf config) (i, n, dr)) = loop fuel (prev_step f pf t lf config) (n mod WHEEL_SIZE f, n, dr)).
  { intros Hr. rewrite from_prim_ok by exact Hr. cbn [unwrap bind]. rewrite rem_ok by lia. reflexivity. }
  destruct f eqn:Ef.
  - rewrite (from_prim_ok t 255) by (apply valid_byte; [exact Ht | lia]). cbn [unwrap bind]. assert (El : last (SMALL_PRIMES BigTable) 0 = 8161) by (vm_compute; reflexivity). rewrite El.
    destruct (Z.leb_spec n 255) as [L|L]; cbn [bind].
    + left. exists p. destruct Tab as [-> [A B]]; [lia|]. auto.
    + assert (H81 : in_range t 8161) by (destruct t as [w|]; cbn [in_range valid_ity] in *; [destruct Ht as [->|[->|[->|[->| ->]]]]; lia | lia]).
      rewrite from_prim_ok by exact H81. cbn [unwrap bind]. destruct (Z.ltb_spec n 8161) as [L2|L2].
      * left. exists p. destruct Tab as [-> [A B]]; [lia|]. auto.
      * right. split; [lia|]. apply Wh. eapply in_range_le; [|exact Hn]. lia.
  - destruct (Z.ltb_spec n 256) as [L|L].
    + left. exists p. destruct Tab as [-> [A B]]; [lia|]. auto.
    + right. split; [lia|]. apply Wh. apply valid_byte; [exact Ht | change (WHEEL_SIZE SmallTable) with 30; lia].
Qed.
Theorem prev_prime_spec : forall fuel n dr, in_range t n -> dr_ok dr -> run True True (prev_post n) (prev_prime f pf t lf fuel n config dr).
Proof.
  intros fuel n dr Hn Hdr. destruct (Z.le_gt_cases n 2) as [L|L].
  - unfold prev_prime. apply Z.leb_le in L. rewrite L. cbn [run]. unfold prev_post. cbn [fst]. apply Z.leb_le, L.
  - destruct (prev_prime_cases fuel n dr Hn L) as [[p [[Pp [Hp1 Hp2]] [Hb ->]]]|[H251 ->]].
    + cbn [run]. unfold prev_post. cbn [fst]. pose proof (prime_ge2 p Pp). split; [lia|]. split; [apply prime_accepts; [eapply in_range_le; [|exact Hn]; lia | exact Pp | lia]|]. intros q Pq Hq. specialize (Hp2 q Pq ltac:(lia)). lia.
    + apply (run_loop _ _ True True (prev_inv n)); [|exact I | apply prev_step_spec]. split; [reflexivity|]. split; [exact Hn|]. split; [lia|]. split; [exact Hdr|]. intros q _ Hq. lia.
Qed.
Lemma prev_returns : forall fuel n dr, in_range t n -> 2 < n < 2 ^ 64 -> n < fuel -> exists p, prev_prime f pf t lf fuel n config dr = Ret (Some p, dr) /\
  2 <= p < n /\ z_is_prime64 f p = true /\ (forall q, prime q -> ~ (p < q < n)).
Proof.
  intros fuel n dr Hn Hb Hf. destruct (prev_prime_cases fuel n dr Hn ltac:(lia)) as [[p [[Pp [Hp1 Hp2]] [_ ->]]]|[H251 ->]].
  { exists p. pose proof (prime_ge2 p Pp). split; [reflexivity|]. split; [lia|]. split; [apply z_is_prime64_complete, Pp|]. intros q Pq Hq. specialize (Hp2 q Pq ltac:(lia)). lia. }
  assert (R : run False False (fun x => snd x = dr /\ exists p, fst x = Some p /\ 2 <= p < n /\ z_is_prime64 f p = true /\ (forall q, prime q -> ~ (p < q < n))) (loop fuel (prev_step f pf t lf config) (n mod WHEEL_SIZE f, n, dr))).
  { apply (run_loop_measure _ _ False False (fun '(i, x, d) => i = x mod WHEEL_SIZE f /\ in_range t x /\ d = dr /\ 13 < x <= n /\ (forall q, prime q -> ~ (x <= q < n))) _ (fun '(i, x, d) => x)).
    - split; [reflexivity|]. split; [exact Hn|]. split; [reflexivity|]. split; [lia|]. intros q _ Hq. lia.
    - lia.
    - intros [[i x] d] [-> [Hx [-> [Hx2 Hno]]]]. destruct (prev_step_eq x dr Hx ltac:(lia)) as [off [Ho [H13 [Hq ->]]]]. assert (Hr : in_range t (x - off)) by (eapply in_range_le; [|exact Hx]; lia).
      assert (Hno' : forall q, prime q -> ~ (x - off < q < n)) by (intros q Pq Hq2; destruct (Z.lt_ge_cases q x); [apply (Hq q Pq); lia | apply (Hno q Pq); lia]).
      rewrite probably_small by (auto; lia). cbn [bind run]. destruct (z_is_prime64 f (x - off)) eqn:Ez; [split; [reflexivity | exists (x - off); split; [reflexivity|]; split; [lia|]; split; [exact Ez | exact Hno']]|].
      assert (x - off <> 13) by (intros C; rewrite C in Ez; rewrite (z_is_prime64_complete f 13 prime13) in Ez; discriminate Ez).
      split; [|lia]. split; [reflexivity|]. split; [exact Hr|]. split; [reflexivity|]. split; [lia|]. intros q Pq Hq2. destruct (Z.eq_dec q (x - off)) as [Eq|Nq]; [|apply (Hno' q Pq); lia].
      rewrite <- Eq in Ez. rewrite (z_is_prime64_complete f q Pq) in Ez. discriminate Ez. }
  destruct (loop fuel _ _) as [[o d]| |]; cbn [run fst snd] in R; [|destruct R | destruct R]. destruct R as [-> [p [-> R]]]. exists p. split; [reflexivity | exact R].
Qed.
End Search.
