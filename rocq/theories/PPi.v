(** * Proofs about nth_prime, prime_phi, prime_pi (src/buffer.rs:387-475). *)
From Coq Require Import ZArith Znumtheory List Lia Bool Sorted.
From Verif Require Import Base Tables Spec Ext NT PBase PTables MInteger PInteger Ops POps MPrimality MTraits PSprp MFactor MSieve MIsPrime PSieve PBuffer PIsPrime PIsPrime2 PropIsPrime PNext PropNext NTPhi MPi.
Import ListNotations.
Local Open Scope Z_scope.

(** loops over a..b *)
Lemma run_range : forall A (pan nf : Prop) (I : Z -> A -> Prop) (g : A -> Z -> res A) lo hi s,
  lo <= hi -> I lo s -> (forall i s, lo <= i < hi -> I i s -> run pan nf (I (i + 1)) (g s i)) ->
  run pan nf (I hi) (foldM g (range_step lo hi 1) s).
Proof.
  intros A pan nf I g lo hi s Hle H0 Hs. unfold range_step. rewrite Z.div_1_r. replace (hi - lo + 1 - 1) with (hi - lo) by lia.
  assert (G : forall n i s, lo <= i -> i + Z.of_nat n = hi -> I i s -> run pan nf (I hi) (foldM g (range_from n i 1) s)).
  { induction n as [|n IH]; intros i s' Hi E HI; cbn [range_from foldM].
    - replace hi with i by lia. exact HI.
    - apply run_bind. eapply run_mono; [apply Hs; [lia | exact HI] | auto | auto |]. intros s'' HI'. apply IH; [lia | lia | exact HI']. }
  apply G; [lia | lia | exact H0].
Qed.

(** ** prev_prime / next_prime on u64 *)
(** is_prime64 accepts only primes between A and B *)
Definition sound_on (f : feature) (A B : Z) : Prop := forall m, A <= m <= B -> z_is_prime64 f m = true -> prime m.

Section Pi.
Variables (f : feature) (pf : profile) (bounds : Z -> option (Z * Z)) (est : Z -> res (option Z)) (fuel_next fuel_walk : Z).
Hypothesis (Hfn : 2 ^ 64 <= fuel_next).
Hypothesis (Hfw : 2 ^ 64 <= fuel_walk).

Notation prev64 := (prev64 f pf fuel_next).
Notation next64 := (next64 f pf fuel_next).
Notation prime_pi := (prime_pi f pf bounds est fuel_next fuel_walk).
Notation prime_phi := (prime_phi f pf bounds est fuel_next fuel_walk).
Notation nth_prime := (nth_prime f pf bounds est fuel_next fuel_walk).
Notation walk := (walk f pf fuel_next fuel_walk).

Lemma valid_u64 : valid_ity u64.
Proof. unfold u64, valid_ity. tauto. Qed.
Lemma prev64_spec : forall x a, 2 < x < 2 ^ 64 -> prime a -> a < x -> sound_on f a x -> exists p, prev64 x = Ret p /\ a <= p /\ greatest_prime_below x p.
Proof.
  intros x a Hx Pa Ha Hs. unfold MPi.prev64.
  destruct (prev_returns f pf u64 0 None valid_u64 fuel_next x [] ltac:(rng) Hx ltac:(lia)) as [p [-> [Hp [Ez Hn]]]].
  cbn [bind unwrap]. exists p. split; [reflexivity|].
  assert (Hap : a <= p) by (destruct (Z.le_gt_cases a p) as [|L]; [assumption|]; exfalso; apply (Hn a Pa); lia). split; [exact Hap|]. split; [apply Hs; [lia | exact Ez]|]. split; [lia|].
  intros q Pq Hq. destruct (Z.le_gt_cases q p) as [|L]; [assumption|]. exfalso. apply (Hn q Pq). lia.
Qed.
Lemma next64_spec : forall x q, prime x -> prime q -> x < q < 2 ^ 64 -> sound_on f x q -> exists p, next64 x = Ret p /\ p <= q /\ least_prime_above x p.
Proof.
  intros x q Px Pq Hx Hs. pose proof (prime_ge2 x Px) as H2. unfold MPi.next64.
  assert (Hg : ~ table_gap f x).
  { intros [_ Hg]. assert (x = 252 \/ x = 253 \/ x = 254 \/ x = 255) as C by lia. apply primeb_spec in Px. destruct C as [->|[->|[->| ->]]]; vm_compute in Px; discriminate. }
  destruct (next_returns_prime f pf u64 0 None valid_u64 fuel_next x q [] ltac:(rng) Hg Pq ltac:(lia) ltac:(rng) ltac:(lia) ltac:(lia)) as [p [E Hp]].
  rewrite E. cbn [bind unwrap]. exists p. split; [reflexivity|]. split; [lia|].
  destruct (C36_next_prime f pf u64 0 None fuel_next x [] (Some p) [] valid_u64 ltac:(rng) ltac:(cbn; lia) ltac:(right; unfold in_range, u64; intros; lia) E) as [_ [_ [[d [d' Ha]] Hno]]].
  rewrite (probably_small f pf u64 0 None valid_u64) in Ha by (rng || lia). injection Ha as Ha _.
  split; [apply Hs; [lia | exact Ha]|]. split; [lia|]. intros r Pr Hr. destruct (Z.le_gt_cases p r) as [|L]; [assumption|]. exfalso. revert Hr. 
  assert (Hl : Z.log2 (p + 1) < 2 ^ 64) by (pose proof (Z.log2_le_mono (p + 1) (2 ^ 64) ltac:(lia)) as M; rewrite Z.log2_pow2 in M by lia; lia).
  intros Hr. apply (Hno Hl r Pr). lia.
Qed.
Lemma pc_below : forall x p, greatest_prime_below x p -> prime x -> prime_count p = prime_count x - 1.
Proof.
  intros x p [Pp [Hlt Hm]] Px. pose proof (prime_ge2 x Px). pose proof (pc_step (x - 1) ltac:(lia)) as E. replace (x - 1 + 1) with x in E by lia.
  rewrite (primeb_false x Px) in E. rewrite (pc_no_prime p (x - 1)) in E; [lia | lia|]. intros q Pq Hq. specialize (Hm q Pq ltac:(lia)). lia.
Qed.
Lemma pc_above : forall x p, least_prime_above x p -> prime_count p = prime_count x + 1.
Proof.
  intros x p [Pp [Hlt Hm]]. pose proof (prime_ge2 p Pp). pose proof (pc_step (p - 1) ltac:(lia)) as E. replace (p - 1 + 1) with p in E by lia.
  rewrite (primeb_false p Pp) in E. rewrite (pc_no_prime x (p - 1)) in E; [lia | lia|]. intros q Pq Hq. specialize (Hm q Pq ltac:(lia)). lia.
Qed.

Lemma walk_spec : forall n x p a, 1 <= n -> prime x -> x < 2 ^ 64 -> nth_prime_is n p -> p < 2 ^ 64 -> prime a -> a <= x -> a <= p -> sound_on f a x -> sound_on f a p ->
  walk n x (prime_count x) = Ret p.
Proof.
  intros n x p a Hn Px Hx Hp Hpl Pa Hax Hap Sx Sp. unfold MPi.walk.
  assert (Hpos : forall y, 0 <= y -> y < 2 ^ 64 -> 0 <= prime_count y < 2 ^ 64) by (intros y H H'; pose proof (pc_nonneg y); pose proof (pc_lt_self y H); lia).
  pose proof (prime_ge2 x Px).
  assert (R1 : run False False (fun '(y, pi) => prime y /\ a <= y < 2 ^ 64 /\ pi = prime_count y /\ pi <= n) (loop fuel_walk (fun '(x0, pi) => if n <? pi then x' <- prev64 x0 ;; pi' <- sub_ pf u64 pi 1 ;; Ret (Next (x', pi')) else Ret (Done (x0, pi))) (x, prime_count x))).
  { apply (run_loop_measure _ _ False False (fun '(y, pi) => prime y /\ a <= y <= x /\ pi = prime_count y) _ (fun '(y, pi) => pi)).
    - split; [exact Px|]. split; [lia | reflexivity].
    - specialize (Hpos x ltac:(lia) Hx). lia.
    - intros [y pi] [Py [Hy ->]]. pose proof (prime_ge2 y Py). destruct (Z.ltb_spec n (prime_count y)) as [L|L]; cbn [run].
      + assert (2 < y). { destruct (Z.eq_dec y 2) as [->|]; [vm_compute (prime_count 2) in L; lia | lia]. }
        assert (a < y). { destruct (Z.eq_dec a y) as [->|]; [|lia]. destruct Hp as [_ Ec]. pose proof (pc_mono y p ltac:(lia)). lia. }
        destruct (prev64_spec y a ltac:(lia) Pa ltac:(lia)) as [z [-> [Haz Hz]]]; [intros m Hm; apply Sx; lia|]. cbn [bind].
        specialize (Hpos y ltac:(lia) ltac:(lia)). rewrite sub_ok by rng. cbn [bind run]. pose proof (pc_below y z Hz Py) as E.
        destruct Hz as [Pz [Hz _]]. split; [split; [exact Pz|]; split; [lia | lia]|]. pose proof (pc_nonneg z). lia.
      + split; [exact Py|]. split; [lia|]. split; [reflexivity | exact L]. }
  apply run_total in R1. destruct R1 as [[y pi] [E1 [Py [Hy [-> Hyn]]]]]. rewrite E1. cbn [bind].
  assert (R2 : run False False (fun '(z, _) => z = p) (loop fuel_walk (fun '(x0, pi) => if pi <? n then x' <- next64 x0 ;; pi' <- add_ pf u64 pi 1 ;; Ret (Next (x', pi')) else Ret (Done (x0, pi))) (y, prime_count y))).
  { assert (Hn64 : n < 2 ^ 64). { destruct Hp as [Pp <-]. pose proof (prime_ge2 p Pp). apply Hpos; lia. }
    apply (run_loop_measure _ _ False False (fun '(z, pi) => prime z /\ a <= z /\ pi = prime_count z /\ pi <= n) _ (fun '(z, pi) => n - pi)).
    - split; [exact Py|]. split; [lia|]. split; [reflexivity | exact Hyn].
    - pose proof (pc_nonneg y). lia.
    - intros [z pi] [Pz [Haz [-> Hz]]]. pose proof (prime_ge2 z Pz). pose proof (pc_nonneg z). destruct (Z.ltb_spec (prime_count z) n) as [L|L]; cbn [run].
      + assert (Hzp : z < p). { destruct Hp as [Pp Ec]. apply (pc_lt_iff z p Pp). lia. }
        destruct (next64_spec z p Pz (proj1 Hp) ltac:(lia) ltac:(intros m Hm; apply Sp; lia)) as [z' [-> [Hle Hz']]]. cbn [bind].
        rewrite add_ok by rng. cbn [bind run]. pose proof (pc_above z z' Hz') as E. destruct Hz' as [Pz' [Hzz _]]. split; [split; [exact Pz'|]; split; [lia|]; split; lia | lia].
      + apply (nth_prime_unique n); [split; [exact Pz | lia] | exact Hp]. }
  apply run_total in R2. destruct R2 as [[z pi] [-> ->]]. reflexivity.
Qed.

(** ** Contracts, relative to the fuel for the recursion *)
Definition inv (b : buffer) : Prop := buf_ok b /\ b_next b <= 2 ^ 32 + 1.
Definition cache_ok (c : lru) : Prop := forall x a v, In ((x, a), v) c -> v = legendre_phi x a.

Variable nf : Prop.
Definition PIs (k : nat) (limit : Z) : Prop := forall b, inv b -> run False nf (fun '(r, b') => r = prime_count limit /\ inv b') (prime_pi k b limit).
Definition NTHs (k : nat) (n : Z) : Prop := forall b, inv b -> run False nf (fun '(p, b') => nth_prime_is n p /\ inv b') (nth_prime k b n).
Definition PHIs (k : nat) (x a : Z) : Prop := forall b cap cache, inv b -> cache_ok cache ->
  run False nf (fun '(v, b', c') => v = legendre_phi x a /\ inv b' /\ cache_ok c') (prime_phi k b x a cap cache).

(** what nth_prime needs: a correct upper bound up to 4096, an estimate above *)
Definition bnd_ok (n : Z) : Prop := exists lo hi, bounds n = Some (lo, hi) /\ n <= prime_count hi /\ 0 <= hi < 2 ^ 32.
Definition est_ok (n : Z) : Prop := exists e p a, est n = Ret (Some e) /\ 3 <= e < 2 ^ 64 /\ nth_prime_is n p /\ p < 2 ^ 64 /\ prime a /\ a < e /\ a <= p /\ sound_on f a e /\ sound_on f a p.
Definition nth_ok (n : Z) : Prop := (Z.of_nat (length (SMALL_PRIMES f)) < n <= 4096 -> bnd_ok n) /\ (4096 < n -> est_ok n).

Lemma reserve_inv : forall b l, inv b -> 0 <= l < 2 ^ 32 -> exists b', reserve pf b l = Ret b' /\ inv b' /\ l < b_next b'.
Proof.
  intros b l [Hb Hn] Hl. destruct (reserve_spec pf b l Hb Hn ltac:(lia)) as [b' [E [H1 [H2 H3]]]]. exists b'. split; [exact E|]. split; [|exact H3].
  split; [exact H1|]. unfold next_after in H2. pose proof (lor1_bound l (2 ^ 32 - 1) ltac:(lia) eq_refl). lia.
Qed.
Lemma last_nth : forall (l : list Z) y, nth_error (y :: l) (length l) = Some (last l y).
Proof. induction l as [|a l IH]; intros y; [reflexivity|]. cbn [length nth_error]. rewrite last_cons. apply IH. Qed.

Lemma nth_sieve : forall b n, inv b -> 1 <= n <= 4096 -> (Z.of_nat (length (SMALL_PRIMES f)) < n <= 4096 -> bnd_ok n) ->
  exists p b', ('(l, b') <- buf_nprimes f pf bounds b n ;; v <- (match l with [] => Panic | y :: l' => Ret (last l' y) end) ;; Ret (v, b')) = Ret (p, b') /\ nth_prime_is n p /\ inv b'.
Proof.
  intros b n [Hb Hnx] Hn Hbnd.
  destruct (buf_nprimes_spec f pf bounds b n Hb Hnx ltac:(lia)) as [l [b' [E [HL [Hlen [Hb' [[lo hi] [Eh Hn']]]]]]]].
  { intros H. destruct (Hbnd ltac:(lia)) as [lo [hi [A [B C]]]]. exists lo, hi. split; [exact A|]. split; [exact B | lia]. }
  rewrite E. cbn [bind]. destruct l as [|y l]; [cbn in Hlen; lia|]. cbn [bind]. eexists. exists b'. split; [reflexivity|]. split.
  - pose proof (last_nth l y) as El. destruct (nth_prime_exists n hi) as [p [Hp _]].
    { destruct (Z.le_gt_cases n (Z.of_nat (length (SMALL_PRIMES f)))) as [Hle|Hgt].
      - destruct (nth_prime_bounds_table f u64 bounds n ltac:(lia)) as [p [[Hp Hc] [Hlt Ep]]]. pose proof (prime_ge2 p Hp). pose proof (small_next f).
        rewrite Ep, from_prim_ok in Eh by (rngs; destruct f; lia). cbn in Eh. injection Eh as <- <-. lia.
      - destruct (Hbnd ltac:(lia)) as [lo' [hi' [A [B C]]]]. rewrite nth_prime_bounds_u64, A in Eh by lia. injection Eh as <- <-. lia. }
    assert (HL' : lists_primes (y :: l) (fun q => q < p + 1)).
    { eapply lists_primes_ext; [|exact HL]. intros q Pq. cbn beta. destruct Hp as [Pp <-]. rewrite pc_le_iff by assumption. lia. }
    pose proof (lists_primes_nth _ _ _ _ HL' El) as Hq. cbn [length] in Hlen. replace (Z.of_nat (length l) + 1) with n in Hq by lia. exact Hq.
  - split; [exact Hb'|]. assert (Hhi : 0 <= hi < 2 ^ 32).
    { destruct (Z.le_gt_cases n (Z.of_nat (length (SMALL_PRIMES f)))) as [Hle|Hgt].
      - destruct (nth_prime_bounds_table f u64 bounds n ltac:(lia)) as [p [[Hp Hc] [Hlt Ep]]]. pose proof (prime_ge2 p Hp). pose proof (small_next f).
        rewrite Ep, from_prim_ok in Eh by (rngs; destruct f; lia). cbn in Eh. injection Eh as <- <-. destruct f; lia.
      - destruct (Hbnd ltac:(lia)) as [lo' [hi' [A [B C]]]]. rewrite nth_prime_bounds_u64, A in Eh by lia. injection Eh as <- <-. lia. }
    unfold next_after in Hn'. cbn [snd] in Hn'. pose proof (lor1_bound hi (2 ^ 32 - 1) ltac:(lia) eq_refl). lia.
Qed.

Lemma nth_step : forall k n, 1 <= n -> nth_ok n ->
  (forall e x, 4096 < n -> est n = Ret (Some e) -> 2 <= x < e -> PIs k x) -> NTHs (S k) n.
Proof.
  intros k n Hn [Hbn He] Hpi b Hb. cbn [MPi.nth_prime]. unfold nth_prime_body. destruct (Z.ltb_spec n (Z.of_nat (length (b_list b)))) as [L|L].
  - rewrite (index_ok _ _ _ 0) by lia. cbn [bind run]. split; [|exact Hb].
    replace n with (Z.of_nat (Z.to_nat (n - 1)) + 1) at 1 by lia. eapply (lists_primes_nth (b_list b)); [apply (proj1 (proj1 Hb))|]. apply nth_error_nth'. lia.
  - destruct (Z.leb_spec n 4096) as [Ls|Ls].
    + destruct (nth_sieve b n Hb ltac:(lia) Hbn) as [p [b' [-> H]]]. exact H.
    + destruct (He Ls) as [e [p [a [E [He1 [Hp [Hpl [Pa [Hae [Hap [Se Sp]]]]]]]]]]]. rewrite E. cbn [bind unwrap].
      destruct (prev64_spec e a ltac:(lia) Pa Hae Se) as [x [-> [Hax [Px [Hx _]]]]]. cbn [bind]. pose proof (prime_ge2 x Px).
      apply run_bind. eapply run_mono; [apply (Hpi e x Ls E); [lia | exact Hb] | exact (fun h => h) | exact (fun h => h)|].
      intros [pi b'] [-> Hb']. rewrite (walk_spec n x p a Hn Px ltac:(lia) Hp Hpl Pa Hax Hap); [cbn [bind run]; auto | intros m Hm; apply Se; lia | exact Sp].
Qed.

(** ** prime_phi *)
Lemma lru_find_in : forall c k v, lru_find c k = Some v -> In (k, v) c.
Proof.
  induction c as [|[k' v'] c IH]; intros k v E; cbn [lru_find] in E; [discriminate|]. destruct (key_eqb k' k) eqn:Ek; [|right; apply IH, E].
  injection E as ->. left. unfold key_eqb in Ek. apply andb_true_iff in Ek. rewrite !Z.eqb_eq in Ek. destruct k, k', Ek. cbn in *. subst. reflexivity.
Qed.
Lemma lru_remove_ok : forall c k, cache_ok c -> cache_ok (lru_remove c k).
Proof. intros c k H x a v Hin. apply filter_In in Hin. apply H, Hin. Qed.
Lemma lru_get_ok : forall c x a o c', cache_ok c -> lru_get c (x, a) = (o, c') -> cache_ok c' /\ (forall v, o = Some v -> v = legendre_phi x a).
Proof.
  intros c x a o c' H E. unfold lru_get in E. destruct (lru_find c (x, a)) as [v|] eqn:Ef; injection E as <- <-.
  - apply lru_find_in in Ef. split; [|intros v' Ev; injection Ev as <-; apply H, Ef]. intros x' a' v' [Hin|Hin]; [injection Hin as <- <- <-; apply H, Ef | eapply lru_remove_ok; eauto].
  - split; [exact H | discriminate].
Qed.
Lemma firstn_incl : forall A n (l : list A) x, In x (firstn n l) -> In x l.
Proof. intros A n l x H. rewrite <- (firstn_skipn n l). apply in_or_app. left. exact H. Qed.
Lemma lru_put_ok : forall cap c x a, cache_ok c -> cache_ok (lru_put cap c (x, a) (legendre_phi x a)).
Proof.
  intros cap c x a H x' a' v' Hin. unfold lru_put in Hin. apply firstn_incl in Hin. destruct Hin as [Hin|Hin]; [injection Hin as <- <- <-; reflexivity | eapply lru_remove_ok; eauto].
Qed.

Lemma phi_lt : forall x a, 0 <= x < 2 ^ 64 -> 0 <= legendre_phi x a < 2 ^ 64.
Proof. intros x a H. pose proof (phi_nonneg x a). pose proof (phi_le x a ltac:(lia)). lia. Qed.

Lemma phi_step_1 : forall k x, 0 <= x < 2 ^ 64 - 1 -> PHIs (S k) x 1.
Proof.
  intros k x Hx b cap cache Hb Hc. cbn [MPi.prime_phi]. rewrite Z.eqb_refl. rewrite add_ok by rng. cbn [bind]. rewrite div_ok by lia. cbn [bind run].
  split; [symmetry; apply phi_1; lia | auto].
Qed.
Lemma phi_step : forall k x a, 0 <= x < 2 ^ 64 - 1 -> 2 <= a < 2 ^ 64 -> NTHs k a -> (forall y, 0 <= y <= x -> PHIs k y (a - 1)) -> PHIs (S k) x a.
Proof.
  intros k x a Hx Ha Hnth Hphi b cap cache Hb Hc. cbn [MPi.prime_phi]. replace (a =? 1) with false by (symmetry; apply Z.eqb_neq; lia).
  destruct (lru_get cache (x, a)) as [o c'] eqn:Eg. destruct (lru_get_ok _ _ _ _ _ Hc Eg) as [Hc' Ho]. destruct o as [v|].
  - cbn [run]. split; [apply Ho; reflexivity | auto].
  - rewrite sub_ok by rng. cbn [bind]. apply run_bind. eapply run_mono; [apply (Hphi x ltac:(lia)); eassumption | exact (fun h => h) | exact (fun h => h)|].
    intros [[t1 b1] c1] [-> [Hb1 Hc1]]. apply run_bind. eapply run_mono; [apply Hnth, Hb1 | exact (fun h => h) | exact (fun h => h)|].
    intros [p b2] [Hp Hb2]. pose proof (prime_ge2 p (proj1 Hp)). rewrite div_ok by lia. cbn [bind].
    assert (Hq : 0 <= x / p <= x) by (split; [apply Z.div_pos; lia | apply Z.div_le_upper_bound; nia]).
    apply run_bind. eapply run_mono; [apply (Hphi (x / p) Hq); eassumption | exact (fun h => h) | exact (fun h => h)|].
    intros [[t2 b3] c2] [-> [Hb3 Hc2]]. pose proof (phi_rec x a p ltac:(lia) Hp) as E. pose proof (phi_lt x a ltac:(lia)).
    rewrite sub_ok by (rngs; rewrite <- E; lia). cbn [bind run]. rewrite <- E. split; [reflexivity|]. split; [exact Hb3 | apply lru_put_ok, Hc2].
Qed.

(** ** prime_pi *)
Lemma sq_le : forall a b, 0 <= a <= b -> a * a <= b * b.
Proof. intros a b H. nia. Qed.
Lemma cube_le : forall a b, 0 <= a <= b -> a * a * a <= b * b * b.
Proof. intros a b H. pose proof (sq_le a b H). apply Z.mul_le_mono_nonneg; nia. Qed.
Lemma twice_le : forall p w, 2 <= p -> 0 <= w -> 2 * w <= p * w.
Proof. intros p w H H'. nia. Qed.
Lemma l_bounds : forall l i w, 7 <= i <= l -> l * l <= w -> 0 <= l * (l - 1) <= w /\ 0 <= i * (i - 3) <= w /\ 2 <= l * (l - 1) - i * (i - 3) /\ 0 <= tri l i <= w.
Proof.
  intros l i w H Hw. pose proof (tri_double l i) as T. assert (i * i <= l * l) by (apply sq_le; lia).
  assert (i * (i - 1) <= l * (l - 1)) by (apply Z.mul_le_mono_nonneg; lia). repeat split; nia.
Qed.
Lemma pi_small : forall k limit b, inv b -> 0 <= limit < 2 ^ 32 -> (limit <= 38873 \/ exists top, buf_bound b = Ret top /\ limit <= top) ->
  exists b', prime_pi (S k) b limit = Ret (prime_count limit, b') /\ inv b'.
Proof.
  intros k limit b Hb Hl Hc. cbn [MPi.prime_pi]. destruct (buf_bound_spec b (proj1 Hb)) as [top [Et _]]. rewrite Et. cbn [bind].
  replace ((limit <=? top) || (limit <=? 38873)) with true.
  - destruct (reserve_inv b limit Hb Hl) as [b' [-> [Hb' Hlt]]]. cbn [bind]. exists b'. split; [|exact Hb']. f_equal. f_equal. apply (upto_count _ (b_next b')); [apply Hb' | exact Hlt].
  - symmetry. apply orb_true_iff. rewrite !Z.leb_le. destruct Hc as [Hc|[top' [Et' Hc]]]; [right; exact Hc | left; congruence].
Qed.

Lemma S_chain : forall x b i, 2 <= x -> b = prime_count (Z.sqrt x) -> 1 <= i <= b -> prime_count x <= S_ x b i.
Proof.
  intros x b i Hx Eb Hi.
  assert (G : forall n : nat, Z.of_nat n <= b - 1 -> prime_count x <= S_ x b (b - Z.of_nat n)).
  { induction n as [|n IH]; intros Hn.
    - rewrite Z.sub_0_r. rewrite S_end by assumption. lia.
    - specialize (IH ltac:(lia)). set (j := b - Z.of_nat n) in *. replace (b - Z.of_nat (S n)) with (j - 1) by lia.
      destruct (nth_prime_exists j (Z.sqrt x)) as [p [Hp _]]; [lia|]. pose proof (S_step x b j p ltac:(lia) Hp) as E. pose proof (phi_nonneg (x / p) (j - 1)). lia. }
  specialize (G (Z.to_nat (b - i)) ltac:(lia)). replace (b - Z.of_nat (Z.to_nat (b - i))) with i in G by lia. exact G.
Qed.
Lemma S_upper : forall x b i, 0 <= x -> 1 <= i <= b -> 2 * S_ x b i <= x + 1 + b * b.
Proof.
  intros x b i Hx Hi. unfold S_. pose proof (phi_mono_a x 1 i ltac:(lia)). rewrite (phi_1 x Hx) in *. pose proof (tri_double b i). pose proof (Z_div_mod_eq_full (x + 1) 2). pose proof (Z.mod_pos_bound (x + 1) 2 ltac:(lia)).
  assert ((b + i - 2) * (b - i + 1) <= b * b) by nia. lia.
Qed.

Lemma pi_step : forall k limit, 38873 < limit < 2 ^ 64 - 1 ->
  (forall l, 0 <= l < limit -> PIs k l) -> (forall i, 1 <= i <= prime_count (Z.sqrt limit) -> NTHs k i) ->
  PHIs k limit (prime_count (Z.sqrt (Z.sqrt limit))) ->
  forall b, inv b -> run False nf (fun '(r, b') => r = prime_count limit /\ inv b') (prime_pi (S k) b limit).
Proof.
  intros k x Hx Hpi Hnth Hphi b Hb. cbn [MPi.prime_pi]. destruct (buf_bound_spec b (proj1 Hb)) as [top [Et [Ptop [Htop _]]]]. rewrite Et. cbn [bind].
  destruct ((x <=? top) || (x <=? 38873)) eqn:Ec.
  { assert (Hxt : x <= top) by (apply orb_true_iff in Ec; rewrite !Z.leb_le in Ec; lia).
    assert (top <> 2 ^ 32) by (intros C; apply (not_prime_mul (2 ^ 16) (2 ^ 16)); [lia | lia | rewrite C in Ptop; exact Ptop]).
    destruct (pi_small k x b Hb) as [b' [E Hb']]; [destruct Hb; lia | right; eauto |]. cbn [MPi.prime_pi] in E. rewrite Et in E. cbn [bind] in E. rewrite Ec in E. rewrite E. cbn [run]. auto. }
  clear Ec. unfold ext_sqrt. set (rb := Z.sqrt x) in *. set (ra := Z.sqrt rb) in *. set (rc := iroot 3 x).
  assert (Hrb : rb * rb <= x < (rb + 1) * (rb + 1)) by (exact (Z.sqrt_spec x ltac:(lia))).
  assert (Hrb0 : 197 <= rb < 2 ^ 32). { split; [apply Z.sqrt_le_square; lia | apply Z.sqrt_lt_square; lia]. }
  assert (Hra : ra * ra <= rb < (ra + 1) * (ra + 1)) by (exact (Z.sqrt_spec rb ltac:(lia))).
  assert (Hra0 : 14 <= ra) by (apply Z.sqrt_le_square; lia).
  destruct (iroot_spec 3 x ltac:(lia) ltac:(lia)) as [Hrc0 Hrc]. fold rc in Hrc0, Hrc. 
  assert (C1 : rc ^ 3 = rc * rc * rc) by ring. assert (C2 : (rc + 1) ^ 3 = (rc + 1) * (rc + 1) * (rc + 1)) by ring. rewrite C1, C2 in Hrc. clear C1 C2.
  assert (Hrax : ra < x) by nia. assert (Hrbx : rb < x) by nia. assert (Hrcx : rc < x) by nia.
  destruct (reserve_inv b rb Hb ltac:(lia)) as [b1 [-> [Hb1 _]]]. cbn [bind].
  apply run_bind. eapply run_mono; [apply (Hpi ra); [lia | exact Hb1] | exact (fun h => h) | exact (fun h => h)|]. intros [a b2] [Ea Hb2].
  apply run_bind. eapply run_mono; [apply (Hpi rb); [lia | exact Hb2] | exact (fun h => h) | exact (fun h => h)|]. intros [bb b3] [Ebb Hb3].
  apply run_bind. eapply run_mono; [apply (Hpi rc); [lia | exact Hb3] | exact (fun h => h) | exact (fun h => h)|]. intros [c b4] [Ecc Hb4].
  assert (Ha6 : 6 <= a). { rewrite Ea. pose proof (pc_mono 14 ra Hra0) as M. vm_compute (prime_count 14) in M. exact M. }
  assert (Hab : a <= bb) by (rewrite Ea, Ebb; apply pc_mono; nia).
  assert (Hbb : bb <= 2 ^ 31). { rewrite Ebb. pose proof (pc_half rb ltac:(lia)). assert ((rb + 1) / 2 <= 2 ^ 31); [|lia]. apply Z.div_le_upper_bound; lia. }
  replace (a =? 0) with false by (symmetry; apply Z.eqb_neq; lia). rewrite <- Ea in Hphi.
  apply run_bind. eapply run_mono; [apply Hphi; [exact Hb4 | intros y z v []] | exact (fun h => h) | exact (fun h => h)|]. intros [[phi b5] c5] [-> [Hb5 _]].
  assert (Hsmall : bb * bb <= 2 ^ 62) by (change (2 ^ 62) with (2 ^ 31 * 2 ^ 31); nia).
  rewrite add_ok by rng. cbn [bind]. rewrite sub_ok by rng. cbn [bind]. rewrite sub_ok by rng. cbn [bind]. rewrite add_ok by rng. cbn [bind].
  assert (Hprod : 0 <= (bb + a - 2) * (bb - a + 1) <= bb * bb) by nia.
  rewrite mul_ok by rng. cbn [bind]. rewrite div_ok by lia. cbn [bind]. fold (tri bb a).
  pose proof (S_upper x bb a ltac:(lia) ltac:(lia)) as HSa. pose proof (S_chain x bb a ltac:(lia) Ebb ltac:(lia)) as HSc. pose proof (pc_nonneg x) as Hpcx. unfold S_ in HSa, HSc.
  rewrite add_ok by rng. cbn [bind]. fold (S_ x bb a) in *.
  apply run_bind. eapply run_mono; [apply (run_range _ False nf (fun i '(s, bf) => s = S_ x bb (i - 1) /\ inv bf)) | exact (fun h => h) | exact (fun h => h)|].
  - lia.
  - replace (a + 1 - 1) with a by lia. auto.
  - intros i [s bf] Hi [-> Hbf].
    apply run_bind. eapply run_mono; [apply (Hnth i); [lia | exact Hbf] | exact (fun h => h) | exact (fun h => h)|]. intros [p bf1] [Hp Hbf1].
    pose proof (prime_ge2 p (proj1 Hp)) as Hp2. rewrite div_ok by lia. cbn [bind].
    assert (Hprb : p <= rb) by (apply (nth_prime_le i p rb Hp); lia).
    assert (Hpra : ra < p). { destruct (Z.lt_ge_cases ra p) as [|L]; [assumption|]. apply (nth_prime_le i p ra Hp) in L. lia. }
    assert (Hp2x : p * p <= x) by (pose proof (sq_le p rb ltac:(lia)); lia).
    assert (Hp2rb : rb + 1 <= p * p) by (pose proof (sq_le (ra + 1) p ltac:(lia)); lia). assert (Hp4 : x < p * p * (p * p)) by (pose proof (sq_le (rb + 1) (p * p) ltac:(lia)); lia).
    set (w := x / p). pose proof (Z_div_mod_eq_full x p) as Ew. pose proof (Z.mod_pos_bound x p ltac:(lia)) as Bw. fold w in Ew.
    assert (Hwp : p <= w) by (apply Z.div_le_lower_bound; lia). assert (Hwx : w < x) by (pose proof (twice_le p w Hp2 ltac:(lia)); lia). assert (Hw3 : w < p * p * p) by (apply Z.div_lt_upper_bound; lia).
    apply run_bind. eapply run_mono; [apply (Hpi w); [lia | exact Hbf1] | exact (fun h => h) | exact (fun h => h)|]. intros [pw bf2] [-> Hbf2].
    pose proof (S_chain x bb i ltac:(lia) Ebb ltac:(lia)) as HSi. pose proof (S_upper x bb i ltac:(lia) ltac:(lia)) as HSu. pose proof (S_upper x bb (i - 1) ltac:(lia) ltac:(lia)) as HSu1.
    pose proof (pc_nonneg w) as Hpw0.
    destruct (Z.leb_spec i c) as [Lc|Lc].
    + (* p^3 <= x *)
      assert (Hprc : p <= rc) by (apply (nth_prime_le i p rc Hp); lia).
      assert (Hp3 : p * p * p <= x) by (pose proof (cube_le p rc ltac:(lia)); lia). assert (Hpw : p * p <= w) by (apply Z.div_le_lower_bound; lia).
      assert (Hsw : p <= Z.sqrt w) by (apply Z.sqrt_le_square; lia).
      pose proof (Z.sqrt_spec w ltac:(lia)) as Hsq. cbv zeta in Hsq. 
      set (l := prime_count (Z.sqrt w)).
      assert (Hil : i <= l) by (apply (nth_prime_le i p (Z.sqrt w) Hp); exact Hsw).
      assert (Hlw : l * l <= w). { pose proof (pc_lt_self (Z.sqrt w) ltac:(lia)). fold l in H. pose proof (sq_le l (Z.sqrt w) ltac:(unfold l; pose proof (pc_nonneg (Z.sqrt w)); lia)). lia. }
      pose proof (S_step x bb i p ltac:(lia) Hp) as ES. fold w in ES.
      pose proof (S_chain w l i ltac:(lia) eq_refl ltac:(lia)) as HSl. pose proof (S_step w l i p ltac:(lia) Hp) as ESl. pose proof (phi_nonneg (w / p) (i - 1)) as Hphw.
      (* S_(i-1) - pi(w) >= 0 *)
      assert (ET : tri l (i - 1) = tri l i + (i - 2)) by apply tri_step.
      assert (EU : S_ w l (i - 1) = legendre_phi w (i - 1) + tri l (i - 1)) by reflexivity.
      assert (Hpos : prime_count x <= S_ x bb (i - 1) - prime_count w).
      { destruct (Z.eq_dec l i) as [El|Nl].
        - pose proof (tri_end i) as Te. rewrite El in *. assert (EV : S_ w i i = prime_count w) by (apply S_end; [lia | symmetry; exact El]).
          pose proof (S_step_simple w i i p ltac:(lia) Hp Hpw Hw3) as ESS. 
          assert (prime_count p <= prime_count (w / p)) by (apply pc_mono, Z.div_le_lower_bound; lia). destruct Hp as [_ Hpc]. lia.
        - (* phi(w, i-1) counts 1 and the primes from p_i up to w *)
          assert (prime_count w - (i - 1) + 1 <= legendre_phi w (i - 1)); [|lia].
          pose proof (pc_mono p w Hwp). destruct Hp as [Pp Hpc].
          assert (Q : forall n : nat, Z.of_nat n <= l - (i - 1) -> prime_count w - (l - Z.of_nat n) + 1 <= legendre_phi w (l - Z.of_nat n)).
          { induction n as [|n IH]; intros Hn.
            - rewrite Z.sub_0_r. assert (EV : S_ w l l = prime_count w) by (apply S_end; [lia | reflexivity]). unfold S_ in EV. rewrite tri_end in EV. lia.
            - specialize (IH ltac:(lia)). set (j := l - Z.of_nat n) in *. replace (l - Z.of_nat (S n)) with (j - 1) by lia.
              destruct (nth_prime_exists j (Z.sqrt w)) as [pj [Hpj Hpjs]]; [fold l; lia|]. rewrite (phi_rec w j pj ltac:(lia) Hpj) in IH.
              assert (1 <= legendre_phi (w / pj) (j - 1)); [|lia].
              pose proof (prime_ge2 pj (proj1 Hpj)). assert (1 <= w / pj) by (apply Z.div_le_lower_bound; [lia|]; pose proof (Z.sqrt_le_lin w ltac:(lia)); lia).
              unfold legendre_phi. pose proof (count_mono (coprime_to_first (j - 1)) 1 (Z.to_nat (w / pj)) ltac:(lia)) as M.
              cbn [count] in M. change (Z.of_nat 1) with 1 in M. replace (coprime_to_first (j - 1) 1) with true in M; [lia|].
              symmetry. apply cop_spec; [lia|]. intros q Pq _ Hd. pose proof (prime_ge2 q Pq). apply divide_pos_le in Hd; lia. }
          specialize (Q (Z.to_nat (l - (i - 1))) ltac:(lia)). replace (l - Z.of_nat (Z.to_nat (l - (i - 1)))) with (i - 1) in Q by lia. exact Q. }
      rewrite sub_ok by rng. cbn [bind].
      apply run_bind. eapply run_mono; [apply (Hpi (Z.sqrt w)); [pose proof (Z.sqrt_le_lin w ltac:(lia)); lia | exact Hbf2] | exact (fun h => h) | exact (fun h => h)|]. intros [l' bf3] [-> Hbf3]. fold l.
      assert (Hww : 15 * w <= x) by (assert (15 * w <= p * w) by (apply Z.mul_le_mono_nonneg_r; lia); lia).
      destruct (l_bounds l i w ltac:(lia) Hlw) as [Hll [Hii [Hd Htl]]].
      rewrite sub_ok by rng. cbn [bind]. rewrite mul_ok by rng. cbn [bind]. rewrite sub_ok by rng. cbn [bind]. rewrite mul_ok by rng. cbn [bind]. rewrite sub_ok by rng. cbn [bind]. rewrite div_ok by lia. cbn [bind].
      assert (Etri : (l * (l - 1) - i * (i - 3)) / 2 - 1 = tri l i).
      { pose proof (tri_double l i) as T2. replace (l * (l - 1) - i * (i - 3)) with ((tri l i + 1) * 2) by lia. rewrite Z.div_mul by lia. ring. }
      rewrite sub_ok by (rngs; lia). cbn [bind]. rewrite Etri. rewrite add_ok by rng. cbn [bind].
      replace (i + 1 - 1) with i by lia.
      eapply run_mono; [apply (run_range _ False nf (fun j '(s, bf) => s = S_ x bb i - prime_count w + S_ w l (j - 1) /\ inv bf)) | exact (fun h => h) | exact (fun h => h)|].
      * lia.
      * split; [|exact Hbf3]. lia.
      * intros j [s bg] Hj [-> Hbg].
        apply run_bind. eapply run_mono; [apply (Hnth j); [split; [lia|]; assert (l <= bb) by (unfold l; rewrite Ebb; apply pc_mono, Z.sqrt_le_mono; lia); lia | exact Hbg] | exact (fun h => h) | exact (fun h => h)|]. intros [pj bg1] [Hpj Hbg1].
        pose proof (prime_ge2 pj (proj1 Hpj)). rewrite div_ok by lia. cbn [bind].
        assert (Hppj : p <= pj) by (apply (nth_prime_mono i p j pj Hp Hpj); lia).
        assert (Hpjs : pj <= Z.sqrt w) by (apply (nth_prime_le j pj (Z.sqrt w) Hpj); fold l; lia).
        assert (Hw' : 0 <= w / pj < x). { split; [apply Z.div_pos; lia|]. apply Z.le_lt_trans with w; [apply Z.div_le_upper_bound; [lia | pose proof (twice_le pj w ltac:(lia) ltac:(lia)); lia] | exact Hwx]. }
        apply run_bind. eapply run_mono; [apply (Hpi (w / pj) Hw'), Hbg1 | exact (fun h => h) | exact (fun h => h)|]. intros [pq bg2] [-> Hbg2].
        pose proof (sq_le pj (Z.sqrt w) ltac:(lia)) as Hj2. pose proof (cube_le p pj ltac:(lia)) as Hj3.
        pose proof (S_step_simple w l j pj ltac:(lia) Hpj ltac:(lia) ltac:(lia)) as Ej.
        pose proof (S_chain w l j ltac:(lia) eq_refl ltac:(lia)) as HSj. pose proof (S_upper w l j ltac:(lia) ltac:(lia)) as HSju.
        replace (j + 1 - 1) with j by lia. rewrite sub_ok by (rngs; lia). cbn [bind run]. split; [lia | exact Hbg2].
      * intros [s bg] [-> Hbg]. replace (l + 1 - 1) with l by lia. rewrite (S_end w l ltac:(lia) eq_refl). split; [lia | exact Hbg].
    + (* p^3 > x *)
      assert (Hprc : rc < p). { destruct (Z.lt_ge_cases rc p) as [|L]; [assumption|]. apply (nth_prime_le i p rc Hp) in L. lia. }
      assert (Hp3 : x < p * p * p) by (pose proof (cube_le (rc + 1) p ltac:(lia)); lia).
      pose proof (S_step_simple x bb i p ltac:(lia) Hp Hp2x Hp3) as ES. fold w in ES.
      rewrite sub_ok by (rngs; lia). cbn [bind run]. replace (i + 1 - 1) with i by lia. split; [lia | exact Hbf2].
  - intros [s bf] [-> Hbf]. cbn [run]. replace (bb + 1 - 1) with bb by lia. split; [apply S_end; [lia | exact Ebb] | exact Hbf].
Qed.
End Pi.
