(** * Lucas parameter searches, and the Lucas tests with the parameters they choose. *)
From Coq Require Import ZArith Znumtheory Zpow_facts List Lia Bool.
From Verif Require Import Base Spec Ext NT NTLegendre NTLucas NTResidue PBase MInteger Ops PInteger POps MPrimality PSprp PLucas PLucas2.
Import ListNotations.
Local Open Scope Z_scope.

(** What the loops return when they stop at d (resp. P). *)
Definition self_out (pf : profile) (n e : Z) : res (Z * Z) :=
  if (e =? 13) && is_sq n then Ret (0, 0)
  else if (jacobi (star e) n =? 0) && negb (e =? n) then Ret (0, 0)
  else if e <? 2 ^ 63 then d1 <- wrap_isize pf (1 - star e) ;; Ret (1, Z.quot d1 4) else Panic.
Definition brute_out (n P : Z) : Z :=
  if (P =? 10) && is_sq n then 0
  else if (jacobi (P * P - 4) n =? 0) && negb (P * P - 4 =? n) then 0 else P.

Lemma in_range_dec : forall t x, in_range t x \/ ~ in_range t x.
Proof. intros t x. destruct (in_rangeb t x) eqn:E; [left | right]; rewrite <- in_rangeb_spec; [exact E | congruence]. Qed.

(** first stopping points *)
Definition self_at (n e : Z) : Prop := Z.odd e = true /\ 5 <= e <= 15 + 2 * Z.sqrt n /\ self_stop n e = true /\
  forall x, Z.odd x = true -> 5 <= x < e -> self_stop n x = false.
Definition brute_at (n P : Z) : Prop := 3 <= P <= Z.max 10 (Z.sqrt n) /\ brute_stop n P = true /\
  forall x, 3 <= x < P -> brute_stop n x = false.

Lemma self_at_exists : forall n, 1 <= n -> Z.odd n = true -> exists e, self_at n e.
Proof.
  intros n Hn Ho. destruct (self_stop_exists n Hn Ho) as [d [Hd [Hr Hs]]].
  destruct (least_such (fun x => negb (Z.odd x && (5 <=? x) && self_stop n x)) d) as [r [Hr1 [Er Lr]]]; [lia | |].
  { cbv beta. rewrite Hd, Hs. replace (5 <=? d) with true by (symmetry; apply Z.leb_le; lia). reflexivity. }
  cbv beta in Er. apply negb_false_iff in Er. rewrite !andb_true_iff in Er. destruct Er as [[E1 E2] E3]. apply Z.leb_le in E2.
  exists r. split; [exact E1|]. split; [lia|]. split; [exact E3|]. intros x Ox Hx. specialize (Lr x ltac:(lia)). cbv beta in Lr.
  rewrite Ox in Lr. replace (5 <=? x) with true in Lr by (symmetry; apply Z.leb_le; lia). cbn [andb] in Lr. apply negb_true_iff. exact Lr.
Qed.
Lemma brute_at_exists : forall n, 1 <= n -> Z.odd n = true -> exists P, brute_at n P.
Proof.
  intros n Hn Ho. destruct (brute_stop_exists n Hn Ho) as [d [Hr Hs]].
  destruct (least_such (fun x => negb ((3 <=? x) && brute_stop n x)) d) as [r [Hr1 [Er Lr]]]; [lia | |].
  { cbv beta. rewrite Hs. replace (3 <=? d) with true by (symmetry; apply Z.leb_le; lia). reflexivity. }
  cbv beta in Er. apply negb_false_iff in Er. rewrite !andb_true_iff in Er. destruct Er as [E2 E3]. apply Z.leb_le in E2.
  exists r. split; [lia|]. split; [exact E3|]. intros x Hx. specialize (Lr x ltac:(lia)). cbv beta in Lr.
  replace (3 <=? x) with true in Lr by (symmetry; apply Z.leb_le; lia). cbn [andb] in Lr. apply negb_true_iff. exact Lr.
Qed.


(** every value met by the Selfridge search fits a valid type *)
Lemma self_range : forall t n x, valid_ity t -> in_range t n -> 0 <= x <= 15 + 2 * Z.sqrt n -> in_range t x.
Proof.
  intros [w|] n x Hv Hn Hx; cbn [in_range] in *; [|lia]. pose proof (Z.sqrt_spec n ltac:(lia)) as [S1 _]. pose proof (Z.sqrt_nonneg n).
  set (s := Z.sqrt n) in *. cbn [valid_ity] in Hv. destruct Hv as [->|[->|[->|[->| ->]]]].
  - assert (s < 2 ^ 4) by nia. lia.
  - assert (s < 2 ^ 8) by nia. lia.
  - assert (s < 2 ^ 16) by nia. lia.
  - assert (s < 2 ^ 32) by nia. lia.
  - assert (s < 2 ^ 64) by nia. lia.
Qed.

Lemma in_range_small : forall t, valid_ity t -> forall c, 0 <= c < 256 -> in_range t c.
Proof. intros t Hv c Hc. destruct t as [w|]; cbn [in_range valid_ity] in *; [|lia]. destruct Hv as [->|[->|[->|[->| ->]]]]; lia. Qed.

Section Generic.
Context {T : Type} (pf : profile) (OP : ops T) (t : ity) (okm : Z -> Prop) (V : T -> Z -> Prop) (R : Z -> T -> Z -> Prop).
Context (L : lawful OP t okm V R) (Hv : valid_ity t).

Let Ht : in_range t 1 := in_range_small t Hv 1 ltac:(lia).

Lemma is_square_law : forall n N, V n N -> 0 < N -> is_square OP n = Ret (is_sq N).
Proof.
  intros n N Hn HN. unfold is_square. destruct (l_sqrt_exact _ _ _ _ _ L _ _ Hn HN) as [o [-> Ho]]. cbn [bind]. f_equal.
  destruct o as [r|].
  - symmetry. apply is_sq_spec; [lia|]. destruct Ho as [x [_ E]]. eauto.
  - symmetry. apply not_true_iff_false. intros C. apply is_sq_spec in C; [contradiction | lia].
Qed.

Lemma selfridge_loop_law : forall k fuel n N d D e, V n N -> okm N -> Z.odd N = true -> 1 <= N -> V d D -> Z.odd D = true -> 5 <= D ->
  e = D + 2 * Z.of_nat k -> in_range t e -> (forall x, Z.odd x = true -> D <= x < e -> self_stop N x = false) -> self_stop N e = true ->
  selfridge_loop pf OP fuel n d (D mod 4 =? 3) = if (fuel <=? k)%nat then NoFuel else self_out pf N e.
Proof.
  induction k as [|k IH]; intros fuel n N d D e Hn Hok Ho HN Hd Od HD He Hre Hbef Hst.
  all: destruct fuel as [|fuel]; [reflexivity|]; cbn [selfridge_loop].
  all: destruct (o_const_ok OP t okm V R L 13 (in_range_small t Hv 13 ltac:(lia))) as [c13 [-> H13]]; cbn [bind].
  all: rewrite (l_eqb _ _ _ _ _ L _ _ _ _ Hd H13); cbn [bind].
  all: assert (Esq : (if D =? 13 then is_square OP n else Ret false) = Ret ((D =? 13) && is_sq N))
        by (destruct (D =? 13); [apply is_square_law; [exact Hn | lia] | reflexivity]); rewrite Esq; cbn [bind].
  all: assert (Ej : exists sd, (if D mod 4 =? 3 then o_negm OP d n else Ret d) = Ret sd /\ o_jacobi OP sd n = Ret (jacobi (star D) N)).
  1, 3: assert (E4 : D mod 4 = 1 \/ D mod 4 = 3) by (apply Z.odd_spec in Od; destruct Od as [j ->]; pose proof (Z.div_mod (2 * j + 1) 4 ltac:(lia)); pose proof (Z.mod_pos_bound (2 * j + 1) 4 ltac:(lia)); lia);
        unfold star; destruct E4 as [-> | ->]; cbn [Z.eqb Pos.eqb];
        [exists d; split; [reflexivity | rewrite (l_jacobi _ _ _ _ _ L _ _ _ _ Hd Hn); unfold ext_jacobi; rewrite Ho; reflexivity]
        |destruct (l_negm _ _ _ _ _ L _ _ _ _ Hd Hn Hok) as [r [-> Hr]]; exists r; split; [reflexivity|];
         rewrite (l_rjacobi _ _ _ _ _ L _ _ _ _ Hr Hn); unfold ext_jacobi; rewrite Ho; f_equal; apply jacobi_eqm; [lia | apply eqm_mod; lia]].
  all: destruct Ej as [sd [-> Ej]]; cbn [bind]; rewrite Ej; cbn [bind].
  all: assert (Eq : (if jacobi (star D) N =? 0 then o_eqb OP d n else Ret true) = Ret (if jacobi (star D) N =? 0 then D =? N else true))
       by (destruct (jacobi (star D) N =? 0); [apply (l_eqb _ _ _ _ _ L); assumption | reflexivity]); rewrite Eq; cbn [bind].
  - (* stops here *)
    rewrite Z.mul_0_r, Z.add_0_r in He. subst e. unfold self_out. cbn [Nat.leb]. unfold self_stop in Hst.
    destruct ((D =? 13) && is_sq N); [reflexivity|]. cbn [orb] in Hst.
    destruct (jacobi (star D) N =? 0) eqn:E0.
    + destruct (D =? N) eqn:EN; cbn [negb andb] in *; [|reflexivity]. apply Z.eqb_eq in E0. rewrite E0 in Hst. discriminate Hst.
    + cbn [andb orb negb] in *. rewrite Hst. unfold to_isize. rewrite (l_toz _ _ _ _ _ L _ _ Hd).
      destruct (D <? 2 ^ 63); [|reflexivity]. cbn [bind].
      assert (E4 : (if D mod 4 =? 3 then - D else D) = star D).
      { assert (E4 : D mod 4 = 1 \/ D mod 4 = 3) by (apply Z.odd_spec in Od; destruct Od as [j ->]; pose proof (Z.div_mod (2 * j + 1) 4 ltac:(lia)); pose proof (Z.mod_pos_bound (2 * j + 1) 4 ltac:(lia)); lia).
        unfold star. destruct E4 as [-> | ->]; reflexivity. }
      rewrite E4. reflexivity.
  - pose proof (Hbef D Od ltac:(lia)) as Hb. unfold self_stop in Hb. apply orb_false_iff in Hb. destruct Hb as [Hb Hb3]. apply orb_false_iff in Hb. destruct Hb as [Hb1 Hb2].
    rewrite Hb1. replace (if jacobi (star D) N =? 0 then D =? N else true) with true.
    2: { destruct (jacobi (star D) N =? 0); [|reflexivity]. cbn [andb] in Hb2. apply negb_false_iff in Hb2. auto. }
    cbn [negb]. rewrite Hb3.
    destruct (o_const_ok OP t okm V R L 2 (in_range_small t Hv 2 ltac:(lia))) as [c2 [-> H2]]; cbn [bind].
    destruct (l_add _ _ _ _ _ L _ _ _ _ Hd H2) as [d' [-> Hd']].
    { eapply in_range_le; [|exact Hre]. lia. }
    cbn [bind]. replace (negb (D mod 4 =? 3)) with ((D + 2) mod 4 =? 3).
    2: { assert (E4 : D mod 4 = 1 \/ D mod 4 = 3) by (apply Z.odd_spec in Od; destruct Od as [j ->]; pose proof (Z.div_mod (2 * j + 1) 4 ltac:(lia)); pose proof (Z.mod_pos_bound (2 * j + 1) 4 ltac:(lia)); lia).
         rewrite Zplus_mod. destruct E4 as [-> | ->]; reflexivity. }
    rewrite (IH fuel n N d' (D + 2) e); [reflexivity | assumption .. | rewrite Z.odd_add, Od; reflexivity | lia | lia | assumption | | assumption].
    intros x Ox Hx. apply Hbef; [exact Ox | lia].
Qed.

Lemma pq_selfridge_law : forall fuel n N e, V n N -> okm N -> Z.odd N = true -> 1 <= N -> self_at N e ->
  pq_selfridge pf OP fuel n = if Z.of_nat fuel <=? (e - 5) / 2 then NoFuel else self_out pf N e.
Proof.
  intros fuel n N e Hn Hok Ho HN [Oe [Re [Se Be]]]. unfold pq_selfridge.
  destruct (o_const_ok OP t okm V R L 5 (in_range_small t Hv 5 ltac:(lia))) as [c5 [-> H5]]; cbn [bind].
  pose proof Oe as Oe'. apply Z.odd_spec in Oe'. destruct Oe' as [j Hj].
  replace false with (5 mod 4 =? 3) by reflexivity.
  rewrite (selfridge_loop_law (Z.to_nat (j - 2)) fuel n N c5 5 e); try assumption; try reflexivity; try lia.
  - replace ((e - 5) / 2) with (j - 2). 2: { subst e. replace (2 * j + 1 - 5) with ((j - 2) * 2) by ring. symmetry. apply Z.div_mul. lia. }
    destruct (Nat.leb_spec fuel (Z.to_nat (j - 2))); destruct (Z.leb_spec (Z.of_nat fuel) (j - 2)); try lia; reflexivity.
  - eapply self_range; [exact Hv | apply (l_range _ _ _ _ _ L _ _ Hn) | lia].
Qed.

Lemma bruteforce_loop_law : forall k fuel n N D e, V n N -> okm N -> Z.odd N = true -> 1 <= N -> 3 <= D ->
  e = D + Z.of_nat k -> (e < 2 ^ 32 \/ D + Z.of_nat fuel <= 2 ^ 32) -> (forall x, D <= x < e -> brute_stop N x = false) -> brute_stop N e = true ->
  (bruteforce_loop pf OP fuel n D = Ret (brute_out N e) /\ (k < fuel)%nat /\ in_range t (e * e - 4)) \/
  (bruteforce_loop pf OP fuel n D = NoFuel /\ (fuel <= k)%nat) \/
  (bruteforce_loop pf OP fuel n D = Panic /\ ~ in_range t (e * e - 4)).
Proof.
  induction k as [|k IH]; intros fuel n N D e Hn Hok Ho HN HD He He32 Hbef Hst.
  all: destruct fuel as [|fuel]; [right; left; split; [reflexivity | lia]|]; cbn [bruteforce_loop].
  all: assert (Esq : (if D =? 10 then is_square OP n else Ret false) = Ret ((D =? 10) && is_sq N))
        by (destruct (D =? 10); [apply is_square_law; [exact Hn | lia] | reflexivity]); rewrite Esq; cbn [bind].
  all: assert (HD32 : D < 2 ^ 32) by lia.
  all: assert (HDD : 9 <= D * D < 2 ^ 64) by nia.
  all: rewrite mul_ok by rng; cbn [bind]; rewrite sub_ok by rng; cbn [bind].
  all: destruct (in_range_dec t (D * D - 4)) as [Rd|Rd].
  2, 4: replace ((D =? 10) && is_sq N) with false
          by (symmetry; apply andb_false_iff; left; apply Z.eqb_neq; intros ->; apply Rd; apply (in_range_small t Hv); lia);
        rewrite (o_const_panic OP t okm V R L _ Rd); cbn [bind]; right; right; split; [reflexivity|]; intros C; apply Rd;
        (eapply in_range_le; [|exact C]; nia).
  all: destruct (o_const_ok OP t okm V R L (D * D - 4) Rd) as [d [Ed Hd]].
  all: assert (Ej : o_jacobi OP d n = Ret (jacobi (D * D - 4) N))
       by (rewrite (l_jacobi _ _ _ _ _ L _ _ _ _ Hd Hn); unfold ext_jacobi; rewrite Ho; reflexivity).
  all: assert (Eq : (if jacobi (D * D - 4) N =? 0 then o_eqb OP d n else Ret true) = Ret (if jacobi (D * D - 4) N =? 0 then D * D - 4 =? N else true))
       by (destruct (jacobi (D * D - 4) N =? 0); [apply (l_eqb _ _ _ _ _ L); assumption | reflexivity]).
  - rewrite Z.add_0_r in He. subst e. left. split; [|split; [lia | exact Rd]]. unfold brute_out. unfold brute_stop in Hst.
    destruct ((D =? 10) && is_sq N); [reflexivity|]. rewrite Ed. cbn [bind]. rewrite Ej. cbn [bind]. rewrite Eq. cbn [bind]. cbn [orb] in Hst.
    destruct (jacobi (D * D - 4) N =? 0) eqn:E0.
    + destruct (D * D - 4 =? N) eqn:EN; cbn [negb andb] in *; [|reflexivity]. apply Z.eqb_eq in E0. rewrite E0 in Hst. discriminate Hst.
    + cbn [andb orb negb] in *. rewrite Hst. reflexivity.
  - pose proof (Hbef D ltac:(lia)) as Hb. unfold brute_stop in Hb. apply orb_false_iff in Hb. destruct Hb as [Hb Hb3]. apply orb_false_iff in Hb. destruct Hb as [Hb1 Hb2].
    rewrite Hb1, Ed. cbn [bind]. rewrite Ej. cbn [bind]. rewrite Eq. cbn [bind].
    replace (if jacobi (D * D - 4) N =? 0 then D * D - 4 =? N else true) with true.
    2: { destruct (jacobi (D * D - 4) N =? 0); [|reflexivity]. cbn [andb] in Hb2. apply negb_false_iff in Hb2. auto. }
    cbn [negb]. rewrite Hb3. rewrite add_ok by rng. cbn [bind].
    destruct (IH fuel n N (D + 1) e) as [[E [A B]]|[[E A]|[E A]]]; [assumption .. | lia | lia | lia | intros x Hx; apply Hbef; lia | assumption | | |].
    + left. split; [exact E|]. split; [lia | exact B].
    + right. left. split; [exact E | lia].
    + right. right. split; [exact E | exact A].
Qed.

Lemma p_bruteforce_law : forall fuel n N e, V n N -> okm N -> Z.odd N = true -> 1 <= N -> brute_at N e ->
  (e < 2 ^ 32 \/ 3 + Z.of_nat fuel <= 2 ^ 32) ->
  (p_bruteforce pf OP fuel n = Ret (brute_out N e) /\ e - 3 < Z.of_nat fuel /\ in_range t (e * e - 4)) \/
  (p_bruteforce pf OP fuel n = NoFuel /\ Z.of_nat fuel <= e - 3) \/
  (p_bruteforce pf OP fuel n = Panic /\ ~ in_range t (e * e - 4)).
Proof.
  intros fuel n N e Hn Hok Ho HN [Re [Se Be]] H32. unfold p_bruteforce.
  destruct (bruteforce_loop_law (Z.to_nat (e - 3)) fuel n N 3 e) as [[E [A B]]|[[E A]|[E A]]]; try assumption; try lia.
  - left. split; [exact E|]. split; [lia | exact B].
  - right. left. split; [exact E | lia].
  - right. right. auto.
Qed.
End Generic.

(** ** The chosen parameters *)
Definition usable (n e : Z) : bool := negb ((e =? 13) && is_sq n) && (jacobi (star e) n =? -1).
Definition self_Q (e : Z) : Z := (1 - star e) / 4.

Lemma self_Q_D : forall e, Z.odd e = true -> 1 * 1 - 4 * self_Q e = star e.
Proof.
  intros e Oe. destruct (star_odd e Oe) as [S4 _]. unfold self_Q. pose proof (Z.div_mod (star e) 4 ltac:(lia)) as E. rewrite S4 in E.
  replace (1 - star e) with (- (star e / 4) * 4) by lia. rewrite Z.div_mul by lia. lia.
Qed.

Lemma self_out_ok : forall pf n e, self_at n e -> e < 2 ^ 63 - 1 ->
  self_out pf n e = Ret (if usable n e then (1, self_Q e) else (0, 0)).
Proof.
  intros pf n e [Oe [Re [Se Be]]] He. unfold self_out, usable. unfold self_stop in Se.
  destruct ((e =? 13) && is_sq n); [reflexivity|]. cbn [orb negb andb] in *.
  destruct ((jacobi (star e) n =? 0) && negb (e =? n)) eqn:E0.
  - apply andb_true_iff in E0. destruct E0 as [E0 _]. apply Z.eqb_eq in E0. rewrite E0. reflexivity.
  - cbn [orb] in Se. rewrite Se. replace (e <? 2 ^ 63) with true by (symmetry; apply Z.ltb_lt; lia).
    destruct (star_odd e Oe) as [S4 Ss]. rewrite wrap_isize_ok by lia. cbn [bind]. do 2 f_equal.
    pose proof (self_Q_D e Oe) as HQ. replace (1 - star e) with (self_Q e * 4) by lia. rewrite Z.quot_mul by lia. reflexivity.
Qed.

Lemma self_usable : forall n e, self_at n e -> usable n e = true -> jacobi (star e) n = -1.
Proof. intros n e _ H. unfold usable in H. apply andb_true_iff in H. destruct H as [_ H]. apply Z.eqb_eq in H. exact H. Qed.

Lemma self_prime_usable : forall p e, prime p -> Z.odd p = true -> self_at p e -> usable p e = true.
Proof.
  intros p e Hp Ho [Oe [Re [Se Be]]]. unfold usable. rewrite (prime_not_sq p Hp), andb_false_r.
  rewrite (self_first_prime p e Hp Ho Oe ltac:(lia) Se Be). reflexivity.
Qed.

Lemma pow_m1_nat : forall k, (-1) ^ Z.of_nat k = if Z.even (Z.of_nat k) then 1 else -1.
Proof.
  intros k. destruct (Z.even (Z.of_nat k)) eqn:E.
  - apply Z.even_spec in E. destruct E as [j E]. rewrite E, Z.pow_mul_r by lia. change ((-1) ^ 2) with 1. apply Z.pow_1_l. lia.
  - assert (E' : Z.odd (Z.of_nat k) = true) by (rewrite <- Z.negb_even, E; reflexivity). apply Z.odd_spec in E'. destruct E' as [j E'].
    rewrite E', Z.pow_add_r, Z.pow_mul_r by lia. change ((-1) ^ 2) with 1. rewrite Z.pow_1_l by lia. reflexivity.
Qed.
Lemma selfridge_D_star : forall k, selfridge_D k = star (5 + 2 * Z.of_nat k).
Proof.
  intros k. unfold selfridge_D, star. rewrite pow_m1_nat. destruct (Z.even (Z.of_nat k)) eqn:E.
  - apply Z.even_spec in E. destruct E as [j E]. rewrite E. replace ((5 + 2 * (2 * j)) mod 4) with 1; [cbn [Z.eqb Pos.eqb]; ring|].
    apply (Z.mod_unique_pos _ _ (1 + j)); lia.
  - assert (E' : Z.odd (Z.of_nat k) = true) by (rewrite <- Z.negb_even, E; reflexivity). apply Z.odd_spec in E'. destruct E' as [j E'].
    rewrite E'. replace ((5 + 2 * (2 * j + 1)) mod 4) with 3; [cbn [Z.eqb Pos.eqb]; ring|]. apply (Z.mod_unique_pos _ _ (1 + j)); lia.
Qed.
Lemma self_choice : forall n e, self_at n e -> usable n e = true -> selfridge_choice n (star e).
Proof.
  intros n e Ha Hu. pose proof (self_usable n e Ha Hu) as Hj. destruct Ha as [Oe [Re [Se Be]]].
  pose proof Oe as Oe'. apply Z.odd_spec in Oe'. destruct Oe' as [j Hj'].
  exists (Z.to_nat (j - 2)). split; [rewrite selfridge_D_star; f_equal; lia|]. split; [exact Hj|].
  intros i Hi C. rewrite selfridge_D_star in C. specialize (Be (5 + 2 * Z.of_nat i)). 
  assert (F : self_stop n (5 + 2 * Z.of_nat i) = false) by (apply Be; [rewrite Z.odd_add, Z.odd_mul; reflexivity | lia]).
  unfold self_stop in F. rewrite C in F. rewrite orb_true_r in F. discriminate F.
Qed.

Definition b_usable (n e : Z) : bool := negb ((e =? 10) && is_sq n) && (jacobi (e * e - 4) n =? -1).
Lemma brute_out_ok : forall n e, brute_at n e -> brute_out n e = if b_usable n e then e else 0.
Proof.
  intros n e [Re [Se Be]]. unfold brute_out, b_usable. unfold brute_stop in Se.
  destruct ((e =? 10) && is_sq n); [reflexivity|]. cbn [orb negb andb] in *.
  destruct ((jacobi (e * e - 4) n =? 0) && negb (e * e - 4 =? n)) eqn:E0.
  - apply andb_true_iff in E0. destruct E0 as [E0 _]. apply Z.eqb_eq in E0. rewrite E0. reflexivity.
  - cbn [orb] in Se. rewrite Se. reflexivity.
Qed.
Lemma brute_usable : forall n e, brute_at n e -> b_usable n e = true -> bruteforce_choice n e.
Proof.
  intros n e [Re [Se Be]] H. unfold b_usable in H. apply andb_true_iff in H. destruct H as [_ H]. apply Z.eqb_eq in H.
  split; [lia|]. split; [exact H|]. intros p Hp C. specialize (Be p Hp). unfold brute_stop in Be. rewrite C, orb_true_r in Be. discriminate Be.
Qed.
Lemma brute_prime_usable : forall p e, prime p -> Z.odd p = true -> brute_at p e -> b_usable p e = true.
Proof.
  intros p e Hp Ho [Re [Se Be]]. unfold b_usable. rewrite (prime_not_sq p Hp), andb_false_r.
  rewrite (brute_first_prime p e Hp Ho ltac:(lia) Se Be). reflexivity.
Qed.

(** n = 2^w - 1 is a multiple of 5: the searches give up, so n + 1 is never formed. *)
Lemma jacobi_one : forall a, jacobi a 1 = 1. Proof. reflexivity. Qed.
Lemma max_mult5 : forall t n, valid_ity t -> in_range t n -> ~ in_range t (n + 1) -> (5 | n) /\ 5 < n.
Proof.
  intros [w|] n Hv Hn Hn1; cbn [in_range valid_ity] in *; [|lia]. destruct Hv as [->|[->|[->|[->| ->]]]].
  - replace n with (2 ^ 8 - 1) by lia. split; [exists 51; reflexivity | lia].
  - replace n with (2 ^ 16 - 1) by lia. split; [exists 13107; reflexivity | lia].
  - replace n with (2 ^ 32 - 1) by lia. split; [exists 858993459; reflexivity | lia].
  - replace n with (2 ^ 64 - 1) by lia. split; [exists 3689348814741910323; reflexivity | lia].
  - replace n with (2 ^ 128 - 1) by lia. split; [exists ((2 ^ 128 - 1) / 5); reflexivity | lia].
Qed.
Lemma prime_5 : prime 5.
Proof. apply primeb_true. reflexivity. Qed.
Lemma usable_n1 : forall t n e, valid_ity t -> in_range t n -> self_at n e -> usable n e = true -> in_range t (n + 1).
Proof.
  intros t n e Hv Hn Ha Hu. destruct (in_range_dec t (n + 1)) as [|C]; [assumption|]. exfalso.
  destruct (max_mult5 t n Hv Hn C) as [D5 H5]. pose proof (self_usable n e Ha Hu) as Hj. destruct Ha as [Oe [Re [Se Be]]].
  assert (J5 : jacobi (star 5) n = 0) by (apply (jacobi_zero_prime 5); [lia | exact prime_5 | exact D5 | apply Z.divide_refl]).
  assert (S5 : self_stop n 5 = true). { unfold self_stop. rewrite J5. replace (5 =? n) with false by (symmetry; apply Z.eqb_neq; lia). reflexivity. }
  destruct (Z.eq_dec e 5) as [->|N5]; [lia|]. rewrite (Be 5 eq_refl ltac:(lia)) in S5. discriminate S5.
Qed.
Lemma b_usable_n1 : forall t n e, valid_ity t -> in_range t n -> brute_at n e -> b_usable n e = true -> in_range t (n + 1).
Proof.
  intros t n e Hv Hn Ha Hu. destruct (in_range_dec t (n + 1)) as [|C]; [assumption|]. exfalso.
  destruct (max_mult5 t n Hv Hn C) as [D5 H5]. destruct (brute_usable n e Ha Hu) as [_ [Hj _]]. destruct Ha as [Re [Se Be]].
  assert (J5 : jacobi (3 * 3 - 4) n = 0) by (apply (jacobi_zero_prime 5); [lia | exact prime_5 | exact D5 | apply Z.divide_refl]).
  assert (S5 : brute_stop n 3 = true). { unfold brute_stop. rewrite J5. replace (3 * 3 - 4 =? n) with false by (symmetry; apply Z.eqb_neq; lia). reflexivity. }
  destruct (Z.eq_dec e 3) as [->|N5]; [lia|]. rewrite (Be 3 ltac:(lia)) in S5. discriminate S5.
Qed.

(** ** The tests with chosen parameters *)
Definition z_auto (test : Z -> Z -> Z -> bool) (n e : Z) : bool := if usable n e then test n 1 (self_Q e) else false.

Lemma self_fuel : forall fuel n e, self_at n e -> 1 <= n -> (Z.of_nat fuel <= 2 ^ 61 \/ n < 2 ^ 120) -> Z.of_nat fuel <=? (e - 5) / 2 = false -> e < 2 ^ 63 - 1.
Proof.
  intros fuel n e [Oe [Re _]] Hn Hf H. apply Z.leb_gt in H. destruct Hf as [Hf|Hf].
  - assert (Hd : e - 5 < 2 * (2 ^ 61)). { pose proof (Z.mul_div_le (e - 5) 2 ltac:(lia)). pose proof (Z.mod_pos_bound (e - 5) 2 ltac:(lia)). pose proof (Z.div_mod (e - 5) 2 ltac:(lia)). lia. }
    lia.
  - assert (Z.sqrt n < 2 ^ 60); [|lia]. apply Z.sqrt_lt_square; lia.
Qed.

Lemma self_params_ok : forall t n e, valid_ity t -> in_range t n -> self_at n e -> e < 2 ^ 63 - 1 -> params_ok t 1 (self_Q e).
Proof.
  intros t n e Hv Hn [Oe [Re _]] He. pose proof (self_Q_D e Oe) as HQ. destruct (star_odd e Oe) as [_ Ss].
  unfold params_ok. rewrite HQ. split; [lia|]. split; [lia|]. split; [lia|]. split; [lia|].
  split; [eapply self_range; [exact Hv | exact Hn |]; pose proof (Z.sqrt_nonneg n); lia|].
  split; (eapply self_range; [exact Hv | exact Hn | lia]).
Qed.

Section Generic2.
Context {T : Type} (pf : profile) (OP : ops T) (t : ity) (okm : Z -> Prop) (V : T -> Z -> Prop) (R : Z -> T -> Z -> Prop).
Context (L : lawful OP t okm V R) (Hv : valid_ity t).
Let Ht : in_range t 1 := in_range_small t Hv 1 ltac:(lia).

Lemma lucas_params_auto : forall fuel n N e p q, V n N -> okm N -> Z.odd N = true -> 1 <= N -> self_at N e ->
  (Z.of_nat fuel <= 2 ^ 61 \/ N < 2 ^ 120) -> (p = None \/ q = None) ->
  lucas_params pf OP fuel n p q = if Z.of_nat fuel <=? (e - 5) / 2 then NoFuel
     else Ret (if usable N e then Some (1, self_Q e) else None).
Proof.
  intros fuel n N e p q Hn Hok Ho HN Ha Hf Hpq.
  assert (E : lucas_params pf OP fuel n p q = ('(sp, sq) <- pq_selfridge pf OP fuel n ;; if sp =? 0 then Ret None else Ret (Some (sp, sq)))).
  { unfold lucas_params. destruct p; destruct q; try reflexivity. destruct Hpq; discriminate. }
  rewrite E, (pq_selfridge_law pf OP t okm V R L Hv fuel n N e) by assumption.
  destruct (Z.of_nat fuel <=? (e - 5) / 2) eqn:Ef; [reflexivity|].
  rewrite (self_out_ok pf N e Ha (self_fuel fuel N e Ha HN Hf Ef)). destruct (usable N e); reflexivity.
Qed.

Lemma usable_3 : forall N e, 1 <= N -> Z.odd N = true -> self_at N e -> usable N e = true -> 3 <= N.
Proof.
  intros N e HN Ho Ha Hu. destruct (Z.eq_dec N 1) as [->|]; [pose proof (self_usable 1 e Ha Hu) as C; rewrite jacobi_one in C; lia|].
  destruct (Z.eq_dec N 2) as [->|]; [discriminate Ho | lia].
Qed.

Lemma is_lprp_auto : forall fuel n N e p q, V n N -> okm N -> Z.odd N = true -> 1 <= N -> self_at N e ->
  (Z.of_nat fuel <= 2 ^ 61 \/ N < 2 ^ 120) -> (p = None \/ q = None) ->
  is_lprp pf OP fuel n p q = if Z.of_nat fuel <=? (e - 5) / 2 then NoFuel else Ret (z_auto z_lprp N e).
Proof.
  intros fuel n N e p q Hn Hok Ho HN Ha Hf Hpq. unfold is_lprp. destruct (o_one_ok OP t okm V R L Ht) as [o [-> H1]]. cbn [bind].
  rewrite (ltb_one OP t okm V R L _ _ _ Hn H1). cbn [bind]. replace (N <? 1) with false by (symmetry; apply Z.ltb_ge; lia).
  rewrite (l_even _ _ _ _ _ L _ _ Hn). rewrite <- Z.negb_odd, Ho. cbn [negb].
  rewrite (lucas_params_auto fuel n N e p q) by assumption. destruct (Z.of_nat fuel <=? (e - 5) / 2) eqn:Ef; [reflexivity|]. cbn [bind].
  unfold z_auto. destruct (usable N e) eqn:Eu; [|reflexivity]. pose proof (l_range _ _ _ _ _ L _ _ Hn) as Rn.
  apply (lprp_core pf OP t okm V R L Ht); try assumption.
  - eapply usable_3; eassumption.
  - eapply usable_n1; eassumption.
  - eapply self_params_ok; [exact Hv | exact Rn | exact Ha | eapply self_fuel; eassumption].
Qed.

Lemma is_slprp_auto : forall fuel n N e p q, V n N -> okm N -> Z.odd N = true -> 1 <= N -> self_at N e ->
  (Z.of_nat fuel <= 2 ^ 61 \/ N < 2 ^ 120) -> (p = None \/ q = None) ->
  is_slprp pf OP fuel n p q = if Z.of_nat fuel <=? (e - 5) / 2 then NoFuel else Ret (z_auto z_slprp N e).
Proof.
  intros fuel n N e p q Hn Hok Ho HN Ha Hf Hpq. unfold is_slprp. destruct (o_one_ok OP t okm V R L Ht) as [o [-> H1]]. cbn [bind].
  rewrite (ltb_one OP t okm V R L _ _ _ Hn H1). cbn [bind]. replace (N <? 1) with false by (symmetry; apply Z.ltb_ge; lia).
  rewrite (l_even _ _ _ _ _ L _ _ Hn). rewrite <- Z.negb_odd, Ho. cbn [negb].
  rewrite (lucas_params_auto fuel n N e p q) by assumption. destruct (Z.of_nat fuel <=? (e - 5) / 2) eqn:Ef; [reflexivity|]. cbn [bind].
  unfold z_auto. destruct (usable N e) eqn:Eu; [|reflexivity]. pose proof (l_range _ _ _ _ _ L _ _ Hn) as Rn.
  apply (slprp_core pf OP t okm V R L Ht); try assumption.
  - eapply usable_3; eassumption.
  - eapply usable_n1; eassumption.
  - eapply self_params_ok; [exact Hv | exact Rn | exact Ha | eapply self_fuel; eassumption].
Qed.
End Generic2.

(** ** is_eslprp on plain integers *)
Lemma is_eslprp_unfold : forall f pf t fuel n p, valid_ity t -> in_range t n -> Z.odd n = true -> 1 <= n ->
  is_eslprp pf (uops f pf t) fuel n p =
   match p with
   | Some sp => eslprp_tail pf (uops f pf t) n sp
   | None => sp <- p_bruteforce pf (uops f pf t) fuel n ;; if sp =? 0 then Ret false else eslprp_tail pf (uops f pf t) n sp
   end.
Proof.
  intros f pf t fuel n p Hv Hn Ho HN. unfold is_eslprp. pose proof (in_range_small t Hv 1 ltac:(lia)) as Ht.
  destruct (o_one_ok _ t _ _ _ (uops_lawful f pf t) Ht) as [o [-> H1]]. cbn [bind].
  rewrite (ltb_one _ t _ _ _ (uops_lawful f pf t) n n o) by (assumption || (split; auto)). cbn [bind].
  replace (n <? 1) with false by (symmetry; apply Z.ltb_ge; lia).
  cbn [uops o_is_even]. rewrite <- Z.negb_odd, Ho. cbn [negb]. destruct p; reflexivity.
Qed.

Definition z_auto_es (n e : Z) : bool := if b_usable n e then z_eslprp n e else false.

Lemma ztz_odd0 : forall x, 0 < x -> ztz x = 0 -> Z.odd x = true.
Proof. intros x Hx E. destruct (ztz_spec x Hx) as [_ [m [H [Hm _]]]]. rewrite E, Z.pow_0_r, Z.mul_1_l in H. subst x. exact Hm. Qed.
Lemma delta_even : forall n p q, 3 <= n -> Z.odd n = true -> jacobi (p * p - 4 * q) n <> 0 -> 0 < ztz (z_delta n p q).
Proof.
  intros n p q Hn Ho HJ. pose proof (delta_pos n p q Hn) as Hpos. fold (z_delta n p q) in Hpos.
  destruct (ztz_spec _ Hpos) as [H0 _]. destruct (Z.eq_dec (ztz (z_delta n p q)) 0) as [C|]; [|lia]. exfalso.
  apply ztz_odd0 in C; [|exact Hpos]. unfold z_delta in C. pose proof (jacobi_range (p * p - 4 * q) n ltac:(lia)).
  assert (J : jacobi (p * p - 4 * q) n = 1 \/ jacobi (p * p - 4 * q) n = -1) by lia.
  destruct J as [J|J]; rewrite J, Z.odd_sub, Ho in C; discriminate C.
Qed.

Lemma brute_params : forall t e, in_range t (e * e - 4) -> 3 <= e < 2 ^ 31 + 8 -> params_ok t e 1.
Proof.
  intros t e Hr He. unfold params_ok. assert (e * e < 2 ^ 63) by nia.
  split; [lia|]. split; [exact H|]. split; [lia|]. split; [lia|].
  split; [eapply in_range_le; [|exact Hr]; nia|]. split; [eapply in_range_le; [|exact Hr]; nia|].
  rewrite Z.abs_eq by nia. exact Hr.
Qed.

Lemma brute_range : forall t n e, valid_ity t -> in_range t n -> brute_at n e -> in_range t (e * e - 4).
Proof.
  intros t n e Hv Hn [Re _]. pose proof (in_range_nonneg _ _ Hn). pose proof (Z.sqrt_spec n H) as [S1 _]. pose proof (Z.sqrt_nonneg n).
  destruct (Z.le_gt_cases e 10) as [L|L].
  - apply (in_range_small t Hv). nia.
  - eapply in_range_le; [|exact Hn]. assert (e <= Z.sqrt n) by lia. nia.
Qed.
Lemma b_usable_3 : forall n e, 1 <= n -> Z.odd n = true -> brute_at n e -> b_usable n e = true -> 3 <= n.
Proof.
  intros n e HN Ho Ha Hu. destruct (Z.eq_dec n 1) as [->|]; [destruct (brute_usable 1 e Ha Hu) as [_ [C _]]; rewrite jacobi_one in C; lia|].
  destruct (Z.eq_dec n 2) as [->|]; [discriminate Ho | lia].
Qed.
Lemma is_eslprp_auto : forall f pf t fuel n e, valid_ity t -> in_range t n -> Z.odd n = true -> 1 <= n -> brute_at n e ->
  Z.log2 (n + 1) < 2 ^ 64 -> (Z.of_nat fuel <= 2 ^ 31 \/ n < 2 ^ 60) ->
  is_eslprp pf (uops f pf t) fuel n None = if Z.of_nat fuel <=? e - 3 then NoFuel else Ret (z_auto_es n e).
Proof.
  intros f pf t fuel n e Hv Hn Ho HN Ha Hlog Hf. rewrite is_eslprp_unfold by assumption.
  assert (Hsq : n < 2 ^ 60 -> e < 2 ^ 31). { intros H60. destruct Ha as [Re _]. assert (Z.sqrt n < 2 ^ 30) by (apply Z.sqrt_lt_square; lia). lia. }
  destruct (p_bruteforce_law pf _ t _ _ _ (uops_lawful f pf t) Hv fuel n n e) as [[E [A B]]|[[E A]|[E A]]]; rewrite ?E; try assumption.
  - split; auto.
  - destruct Hf as [Hf|Hf]; [right; lia | left; specialize (Hsq Hf); lia].
  - replace (Z.of_nat fuel <=? e - 3) with false by (symmetry; apply Z.leb_gt; lia).
    cbn [bind]. rewrite brute_out_ok by exact Ha. unfold z_auto_es. destruct (b_usable n e) eqn:Eu; [|reflexivity].
    pose proof (b_usable_3 n e HN Ho Ha Eu) as H3. pose proof Ha as [Re _]. replace (e =? 0) with false by (symmetry; apply Z.eqb_neq; lia).
    rewrite eslprp_core; try assumption.
    + destruct (brute_usable n e Ha Eu) as [_ [HJ _]]. pose proof (delta_even n e 1 H3 Ho ltac:(rewrite Z.mul_1_r; lia)) as Hs.
      replace (0 <? ztz (z_delta n e 1)) with true by (symmetry; apply Z.ltb_lt; exact Hs). reflexivity.
    + eapply b_usable_n1; eassumption.
    + apply brute_params; [exact B|]. destruct Hf as [Hf|Hf]; [lia | specialize (Hsq Hf); lia].
  - replace (Z.of_nat fuel <=? e - 3) with true by (symmetry; apply Z.leb_le; lia). reflexivity.
  - exfalso. apply A. eapply brute_range; eassumption.
Qed.
