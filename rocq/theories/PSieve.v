(** * The sieve buffer: invariant, reserve, clear, primes. *)
From Coq Require Import ZArith Znumtheory List Lia Bool Sorted FMapPositive.
From Verif Require Import Base Spec Ext NT PBase Tables MInteger MSieve PTables.
Import ListNotations.
Local Open Scope Z_scope.

(** The list holds exactly the primes below [next]; [next] is odd and at least 55. *)
Definition buf_ok (b : buffer) : Prop :=
  lists_primes (b_list b) (fun p => p < b_next b) /\ Z.odd (b_next b) = true /\ 55 <= b_next b.

Lemma buf_new_ok : forall f, buf_ok (buf_new f).
Proof.
  intros f. split; [apply small_primes_list|]. split; destruct f; vm_compute; congruence.
Qed.

(** ** Splitting a sorted list of primes *)
Lemma sorted_split_at : forall l m, StronglySorted Z.lt l ->
  l = filter (fun x => x <? m) l ++ filter (fun x => negb (x <? m)) l.
Proof.
  induction l as [|a l IH]; intros m H; [reflexivity|]. inversion H as [|a' l' Hs Hall]; subst.
  cbn [filter]. destruct (a <? m) eqn:E; cbn [negb].
  - cbn [app]. f_equal. apply IH, Hs.
  - apply Z.ltb_ge in E. rewrite Forall_forall in Hall.
    assert (F1 : filter (fun x => x <? m) l = []).
    { clear IH H. induction l as [|c l IHl]; [reflexivity|]. cbn [filter].
      assert (a < c) by (apply Hall; left; reflexivity).
      replace (c <? m) with false by (symmetry; apply Z.ltb_ge; lia).
      apply IHl; [inversion Hs; assumption | intros x Hx; apply Hall; right; exact Hx]. }
    assert (F2 : filter (fun x => negb (x <? m)) l = l).
    { specialize (IH m Hs). rewrite F1 in IH. cbn [app] in IH. symmetry. exact IH. }
    rewrite F1, F2. reflexivity.
Qed.
Lemma lists_primes_filter : forall l N m, lists_primes l (fun p => p < N) -> m <= N ->
  lists_primes (filter (fun x => x <? m) l) (fun p => p < m).
Proof.
  intros l N m [Hs Hin] Hm. split; [apply sorted_filter, Hs|].
  intros p. rewrite filter_In, Hin, Z.ltb_lt. split; intuition lia.
Qed.

Lemma buf_clear_ok : forall b, buf_ok b -> buf_ok (buf_clear b).
Proof.
  intros b [HL [Hodd H55]]. unfold buf_clear, buf_ok. cbn [b_list b_next].
  split; [|split; [reflexivity | lia]].
  assert (E : filter (fun x => x <? 55) (b_list b) = first16).
  { eapply lists_primes_unique; [eapply lists_primes_filter; eauto | exact first16_list]. }
  rewrite (sorted_split_at (b_list b) 55) by apply HL. rewrite E.
  change 16%nat with (length first16). rewrite firstn_app, firstn_all, Nat.sub_diag.
  cbn [firstn]. rewrite app_nil_r. exact first16_list.
Qed.

(** ** The bit vector *)
Lemma bit_key_inj : forall i j, 0 <= i -> 0 <= j -> bit_key i = bit_key j -> i = j.
Proof. intros i j Hi Hj H. unfold bit_key in H. assert (i + 1 = j + 1) by (rewrite <- (Z2Pos.id (i+1)), <- (Z2Pos.id (j+1)) by lia; f_equal; exact H). lia. Qed.
Lemma bit_get_add : forall s i j, 0 <= i -> 0 <= j ->
  bit_get (PositiveMap.add (bit_key i) tt s) j = (i =? j) || bit_get s j.
Proof.
  intros s i j Hi Hj. unfold bit_get. rewrite !PositiveMap.mem_find.
  destruct (Z.eqb_spec i j) as [->|Hne].
  - rewrite PositiveMap.gss. reflexivity.
  - rewrite PositiveMap.gso; [reflexivity|]. intros C. apply Hne. symmetry. apply bit_key_inj; auto.
Qed.
Lemma bit_get_empty : forall i, bit_get (PositiveMap.empty unit) i = false.
Proof. intros i. unfold bit_get. rewrite PositiveMap.mem_find, PositiveMap.gempty. reflexivity. Qed.

(** Marking the multiples of one number. *)
Lemma mark_multiples_spec : forall pf current sl len p start s,
  0 < p -> 2 * p < 2 ^ 64 -> len = (sl - current) / 2 -> (sl - current) mod 2 = 0 ->
  run False False (fun s' => forall i, 0 <= i ->
      (bit_get s' i = true <-> bit_get s i = true \/
         exists m, In m (range_step start sl (2 * p)) /\ current <= m /\ (m - current) / 2 = i))
    (mark_multiples pf current sl len p start s).
Proof.
  intros pf current sl len p start s Hp Hp64 Hlen Hev. unfold mark_multiples.
  rewrite mul_ok by rng. cbn [bind].
  replace (2 * p =? 0) with false by (symmetry; apply Z.eqb_neq; lia).
  apply (run_foldM _ _ False False (fun dn s' => forall i, 0 <= i ->
      (bit_get s' i = true <-> bit_get s i = true \/
         exists m, In m dn /\ current <= m /\ (m - current) / 2 = i))).
  - intros i Hi. split; [auto|]. intros [H|[m [[] _]]]. exact H.
  - intros dn m s' Hm HI. apply range_step_in in Hm; [|lia]. destruct Hm as [k [Hk [E Hlt]]].
    destruct (current <=? m) eqn:Ec.
    + apply Z.leb_le in Ec. unfold bit_set.
      assert (H0 : 0 <= (m - current) / 2) by (apply Z.div_pos; lia).
      assert (H1 : (m - current) / 2 < len).
      { subst len. apply Z.div_lt_upper_bound; [lia|].
        pose proof (Z_div_mod_eq_full (sl - current) 2). lia. }
      replace (0 <=? (m - current) / 2) with true by (symmetry; apply Z.leb_le; lia).
      replace ((m - current) / 2 <? len) with true by (symmetry; apply Z.ltb_lt; lia).
      cbn [andb run]. intros i Hi. rewrite bit_get_add by lia.
      rewrite orb_true_iff, Z.eqb_eq, HI by exact Hi. split.
      * intros [C|[C|[m' [A1 [A2 A3]]]]]; [|auto|].
        -- right. exists m. split; [apply in_or_app; right; left; reflexivity | auto].
        -- right. exists m'. split; [apply in_or_app; left; exact A1 | auto].
      * intros [C|[m' [A1 [A2 A3]]]]; [auto|]. apply in_app_or in A1. destruct A1 as [A1|[A1|[]]].
        -- right; right. exists m'. auto.
        -- subst m'. left. exact A3.
    + apply Z.leb_gt in Ec. cbn [run]. intros i Hi. rewrite HI by exact Hi. split.
      * intros [C|[m' [A1 [A2 A3]]]]; [auto|]. right. exists m'. split; [apply in_or_app; left; exact A1 | auto].
      * intros [C|[m' [A1 [A2 A3]]]]; [auto|]. apply in_app_or in A1. destruct A1 as [A1|[A1|[]]]; [right; exists m'; auto | lia].
Qed.

(** first multiple marked for a known prime *)
Definition old_start (current p : Z) : Z :=
  if p * p <? current then p * Z.lor (current / p) 1 else p * p.

Lemma lor1 : forall n, 0 <= n -> Z.lor n 1 = if Z.odd n then n else n + 1.
Proof.
  intros n Hn. destruct (Z.odd n) eqn:E.
  - apply Z.bits_inj'. intros k Hk. rewrite Z.lor_spec. destruct (Z.eq_dec k 0) as [->|Hk0].
    + rewrite Z.bit0_odd, E. reflexivity.
    + replace (Z.testbit 1 k) with false; [apply orb_false_r|].
      symmetry. apply (Z.bits_above_log2 1 k); simpl; lia.
  - rewrite <- Z.lxor_lor.
    + symmetry. rewrite Z.add_nocarry_lxor; [reflexivity|].
      apply Z.bits_inj'. intros k Hk. rewrite Z.land_spec, Z.bits_0. destruct (Z.eq_dec k 0) as [->|Hk0].
      * rewrite Z.bit0_odd, E. reflexivity.
      * replace (Z.testbit 1 k) with false; [apply andb_false_r|].
        symmetry. apply (Z.bits_above_log2 1 k); simpl; lia.
    + apply Z.bits_inj'. intros k Hk. rewrite Z.land_spec, Z.bits_0. destruct (Z.eq_dec k 0) as [->|Hk0].
      * rewrite Z.bit0_odd, E. reflexivity.
      * replace (Z.testbit 1 k) with false; [apply andb_false_r|].
        symmetry. apply (Z.bits_above_log2 1 k); simpl; lia.
Qed.
Lemma lor1_odd : forall n, 0 <= n -> Z.odd (Z.lor n 1) = true.
Proof.
  intros n Hn. rewrite lor1 by exact Hn. destruct (Z.odd n) eqn:E; [exact E|].
  rewrite Z.odd_add, E. reflexivity.
Qed.

Lemma sieve_old_spec : forall pf current sl len p s,
  1 < p < 2 ^ 32 -> p < current < 2 ^ 63 -> len = (sl - current) / 2 -> (sl - current) mod 2 = 0 ->
  run False False (fun s' => forall i, 0 <= i ->
      (bit_get s' i = true <-> bit_get s i = true \/
         exists m, In m (range_step (old_start current p) sl (2 * p)) /\ current <= m /\ (m - current) / 2 = i))
    (sieve_old pf current sl len s p).
Proof.
  intros pf current sl len p s Hp Hpc Hlen Hev. unfold sieve_old, old_start.
  assert (Hsq : p * p < 2 ^ 64) by (change (2 ^ 64) with (2 ^ 32 * 2 ^ 32); nia).
  rewrite mul_ok by (rngs; nia). cbn [bind].
  destruct (p * p <? current) eqn:E.
  - apply Z.ltb_lt in E. rewrite div_ok by lia. cbn [bind].
    assert (Hq : 0 <= current / p) by (apply Z.div_pos; lia).
    rewrite mul_ok.
    + cbn [bind]. apply mark_multiples_spec; lia.
    + rngs. rewrite lor1 by exact Hq.
      assert (p * (current / p) <= current) by (apply Z.mul_div_le; lia).
      destruct (Z.odd (current / p)); nia.
  - cbn [bind]. apply mark_multiples_spec; lia.
Qed.

Lemma sieve_new_spec : forall pf current sl len p s,
  1 < p -> p * p < 2 ^ 64 -> len = (sl - current) / 2 -> (sl - current) mod 2 = 0 ->
  run False False (fun s' => forall i, 0 <= i ->
      (bit_get s' i = true <-> bit_get s i = true \/
         exists m, In m (range_step (p * p) sl (2 * p)) /\ current <= m /\ (m - current) / 2 = i))
    (sieve_new pf current sl len s p).
Proof.
  intros pf current sl len p s Hp Hpp Hlen Hev. unfold sieve_new.
  rewrite mul_ok by (rngs; nia). cbn [bind]. apply mark_multiples_spec; try lia.
Qed.

(** Sieving over a list of numbers. *)
Lemma sieve_fold : forall (g : bits -> Z -> res bits) (start : Z -> Z) current sl l s,
  (forall p s, In p l -> run False False (fun s' => forall i, 0 <= i ->
      (bit_get s' i = true <-> bit_get s i = true \/
         exists m, In m (range_step (start p) sl (2 * p)) /\ current <= m /\ (m - current) / 2 = i)) (g s p)) ->
  run False False (fun s' => forall i, 0 <= i ->
      (bit_get s' i = true <-> bit_get s i = true \/
         exists p m, In p l /\ In m (range_step (start p) sl (2 * p)) /\ current <= m /\ (m - current) / 2 = i))
    (foldM g l s).
Proof.
  intros g start current sl l s Hg.
  apply (run_foldM _ _ False False (fun dn s' => forall i, 0 <= i ->
      (bit_get s' i = true <-> bit_get s i = true \/
         exists p m, In p dn /\ In m (range_step (start p) sl (2 * p)) /\ current <= m /\ (m - current) / 2 = i))).
  - intros i Hi. split; [auto|]. intros [H|[p [m [[] _]]]]. exact H.
  - intros dn p s' Hp HI. eapply run_mono; [apply Hg, Hp | auto | auto |].
    cbn beta. intros s'' HS i Hi. rewrite HS, HI by exact Hi. split.
    + intros [[C|[q [m [A1 A2]]]]|[m A]]; [auto| |].
      * right. exists q, m. split; [apply in_or_app; left; exact A1 | exact A2].
      * right. exists p, m. split; [apply in_or_app; right; left; reflexivity | exact A].
    + intros [C|[q [m [A1 A2]]]]; [auto|]. apply in_app_or in A1. destruct A1 as [A1|[A1|[]]].
      * left; right. exists q, m. auto.
      * subst q. right. exists m. exact A2.
Qed.

Lemma odd_divides_odd : forall p x, Z.odd x = true -> (p | x) -> Z.odd p = true.
Proof.
  intros p x Hx [k E]. subst x. rewrite Z.odd_mul in Hx. apply andb_true_iff in Hx. tauto.
Qed.
Lemma odd_ex : forall x, Z.odd x = true -> exists k, x = 2 * k + 1.
Proof. intros x H. apply Z.odd_spec in H. exact H. Qed.

(** An odd number x in [current, sl) is composite iff it is hit by the sieve. *)
Lemma sieve_complete : forall l current sl x,
  lists_primes l (fun p => p < current) -> Z.odd current = true -> 55 <= current ->
  Z.odd x = true -> current <= x < sl -> ~ prime x ->
  (exists p m, In p (tl l) /\ In m (range_step (old_start current p) sl (2 * p)) /\ current <= m /\ m = x) \/
  (exists p m, In p (range_step current (Z.sqrt sl + 1) 2) /\ In m (range_step (p * p) sl (2 * p)) /\ current <= m /\ m = x).
Proof.
  intros l current sl x [Hs Hin] Hcodd Hc Hxodd Hx Hnp.
  destruct (composite_small_prime x) as [p [Hp [Hd Hpp]]]; [lia | exact Hnp |].
  pose proof (prime_ge2 p Hp) as Hp2.
  assert (Hpodd : Z.odd p = true) by (eapply odd_divides_odd; eauto).
  destruct Hd as [q Hq]. assert (Hqodd : Z.odd q = true).
  { eapply odd_divides_odd; [exact Hxodd|]. exists p. lia. }
  assert (Hqp : p <= q) by nia.
  destruct (Z.lt_ge_cases p current) as [Hlt|Hge].
  - left. exists p, x.
    assert (Hpl : In p l) by (apply Hin; auto).
    assert (Htl : In p (tl l)).
    { destruct l as [|a l']; [destruct Hpl|]. destruct Hpl as [E|Hpl]; [|exact Hpl]. subst a. exfalso.
      assert (H2 : In 2 (p :: l')) by (apply Hin; split; [apply prime_2 | lia]).
      inversion Hs as [|a' l0 Hs' Hall]; subst. rewrite Forall_forall in Hall.
      destruct H2 as [E|H2]; [subst p; discriminate|]. specialize (Hall 2 H2). lia. }
    split; [exact Htl|]. split; [|lia].
    apply range_step_in; [lia|]. unfold old_start.
    destruct (p * p <? current) eqn:E.
    + apply Z.ltb_lt in E.
      assert (Hq0 : 0 <= current / p) by (apply Z.div_pos; lia).
      assert (Hcq : current / p <= q).
      { apply Z.div_le_upper_bound; [lia|]. lia. }
      set (q0 := Z.lor (current / p) 1).
      assert (Hq0odd : Z.odd q0 = true) by (apply lor1_odd; exact Hq0).
      assert (q0 <= q).
      { unfold q0. rewrite lor1 by exact Hq0. destruct (Z.odd (current / p)) eqn:Eo; [lia|].
        assert (current / p <> q) by (intros C; rewrite C in Eo; congruence). lia. }
      destruct (odd_ex _ Hq0odd) as [a Ha]. destruct (odd_ex _ Hqodd) as [b Hb].
      exists (b - a). split; [lia|]. split; [|lia]. rewrite Hq, Ha, Hb. ring.
    + destruct (odd_ex _ Hpodd) as [a Ha]. destruct (odd_ex _ Hqodd) as [b Hb].
      exists (b - a). split; [lia|]. split; [|lia].
      rewrite Hq. replace q with (p + 2 * (b - a)) by lia. ring.
  - right. exists p, x.
    assert (Hsq : p <= Z.sqrt sl) by (apply Z.sqrt_le_square; nia).
    split; [|split; [|lia]].
    + apply range_step_in; [lia|]. destruct (odd_ex _ Hpodd) as [a Ha]. destruct (odd_ex _ Hcodd) as [b Hb].
      exists (a - b). lia.
    + apply range_step_in; [lia|]. destruct (odd_ex _ Hpodd) as [a Ha]. destruct (odd_ex _ Hqodd) as [b Hb].
      exists (b - a). split; [lia|]. split; [|lia].
      rewrite Hq. replace q with (p + 2 * (b - a)) by lia. ring.
Qed.

Lemma not_prime_mul : forall a b, 1 < a -> 1 < b -> ~ prime (a * b).
Proof.
  intros a b Ha Hb Hp. destruct (prime_divisors _ Hp a) as [X|[X|[X|X]]]; try nia.
  exists b. ring.
Qed.

Lemma sieve_sound_old : forall current p sl m, 1 < p -> p < current -> current <= m ->
  In m (range_step (old_start current p) sl (2 * p)) -> ~ prime m.
Proof.
  intros current p sl m Hp Hpc Hm Hin. apply range_step_in in Hin; [|lia].
  destruct Hin as [k [Hk [E _]]].
  assert (exists q, m = p * q) as [q Hq].
  { unfold old_start in E. destruct (p * p <? current);
    [exists (Z.lor (current / p) 1 + 2 * k) | exists (p + 2 * k)]; rewrite E; ring. }
  rewrite Hq. apply not_prime_mul; [exact Hp|]. nia.
Qed.
Lemma sieve_sound_new : forall p sl m, 1 < p ->
  In m (range_step (p * p) sl (2 * p)) -> ~ prime m.
Proof.
  intros p sl m Hp Hin. apply range_step_in in Hin; [|lia].
  destruct Hin as [k [Hk [E _]]]. replace m with (p * (p + 2 * k)) by (rewrite E; ring).
  apply not_prime_mul; lia.
Qed.

(** ** reserve *)
Lemma lor1_le : forall n, 0 <= n -> n <= Z.lor n 1 <= n + 1.
Proof. intros n H. rewrite lor1 by exact H. destruct (Z.odd n); lia. Qed.
Lemma lor1_bound : forall n N, 0 <= n <= N -> Z.odd N = true -> Z.lor n 1 <= N.
Proof.
  intros n N H HN. rewrite lor1 by lia. destruct (Z.odd n) eqn:E; [lia|].
  assert (n <> N) by congruence. lia.
Qed.

Lemma collect_spec : forall current len s, 0 <= len ->
  StronglySorted Z.lt (collect current len s) /\
  forall x, In x (collect current len s) <->
    exists i, 0 <= i < len /\ x = i * 2 + current /\ bit_get s i = false.
Proof.
  intros current len s Hlen. unfold collect. split.
  - assert (Hs : StronglySorted Z.lt (filter (fun x => negb (bit_get s x)) (range_step 0 len 1)))
      by (apply sorted_filter, range_from_sorted; lia).
    induction Hs as [|a l Hs IH Hall]; cbn [map]; constructor; [exact IH|].
    apply Forall_forall. intros y Hy. apply in_map_iff in Hy. destruct Hy as [z [<- Hz]].
    rewrite Forall_forall in Hall. specialize (Hall z Hz). lia.
  - intros x. rewrite in_map_iff. split.
    + intros [i [E Hi]]. apply filter_In in Hi. destruct Hi as [Hi Hb].
      apply range_step_in in Hi; [|lia]. destruct Hi as [k [Hk [Ei Hlt]]].
      exists i. split; [lia|]. split; [lia|]. apply negb_true_iff. exact Hb.
    + intros [i [Hi [E Hb]]]. exists i. split; [lia|]. apply filter_In. split.
      * apply range_step_in; [lia|]. exists i. lia.
      * rewrite Hb. reflexivity.
Qed.

Definition next_after (limit : Z) : Z := Z.lor limit 1 + 2.

Theorem reserve_spec : forall pf b limit,
  buf_ok b -> b_next b <= 2 ^ 32 + 1 -> 0 <= limit <= 2 ^ 64 - 3 ->
  exists b', reserve pf b limit = Ret b' /\ buf_ok b' /\
    b_next b' = Z.max (b_next b) (next_after limit) /\ limit < b_next b'.
Proof.
  intros pf b limit [HL [Hodd H55]] Hn32 Hlim.
  assert (HL' := HL). destruct HL' as [HLs HLin].
  pose proof (lor1_le limit ltac:(lia)) as Hlor.
  assert (Hlor3 : Z.lor limit 1 <= 2 ^ 64 - 3) by (apply lor1_bound; [lia | reflexivity]).
  unfold reserve. rewrite add_ok by rng. cbn [bind].
  fold (next_after limit). set (sl := next_after limit).
  assert (Hslodd : Z.odd sl = true).
  { unfold sl, next_after. rewrite Z.odd_add, lor1_odd by lia. reflexivity. }
  assert (Hsl : limit < sl < 2 ^ 64) by (unfold sl, next_after; lia).
  assert (Hdbg : match pf with Debug => negb (b_next b mod 2 =? 1) | Release => false end = false).
  { destruct pf; [|reflexivity]. rewrite Zmod_odd, Hodd. reflexivity. }
  rewrite Hdbg. destruct (sl <? b_next b) eqn:E.
  { apply Z.ltb_lt in E. exists b. split; [reflexivity|]. split; [split; auto|]. fold sl. lia. }
  apply Z.ltb_ge in E.
  set (current := b_next b) in *. set (len := (sl - current) / 2).
  assert (Hev : (sl - current) mod 2 = 0).
  { rewrite Zmod_odd, Z.odd_sub, Hslodd, Hodd. reflexivity. }
  assert (Hlen : 0 <= len) by (apply Z.div_pos; lia).
  assert (Hlen2 : sl - current = 2 * len) by (unfold len; pose proof (Z_div_mod_eq_full (sl - current) 2); lia).
  assert (Htl : forall p, In p (tl (b_list b)) -> prime p /\ p < current).
  { intros p Hp. apply HLin. destruct (b_list b); [destruct Hp | right; exact Hp]. }
  assert (Hroot : Z.sqrt sl * Z.sqrt sl <= sl) by (apply Z.sqrt_spec; lia).
  assert (Hroot0 : 0 <= Z.sqrt sl) by apply Z.sqrt_nonneg.
  pose proof (sieve_fold (sieve_old pf current sl len) (old_start current) current sl
                (tl (b_list b)) (PositiveMap.empty unit)) as H1.
  assert (H1' : forall p s, In p (tl (b_list b)) -> run False False (fun s' => forall i, 0 <= i ->
      (bit_get s' i = true <-> bit_get s i = true \/
         exists m, In m (range_step (old_start current p) sl (2 * p)) /\ current <= m /\ (m - current) / 2 = i))
      (sieve_old pf current sl len s p)).
  { intros p s Hp. destruct (Htl p Hp) as [Hpp Hpc]. pose proof (prime_ge2 p Hpp).
    assert (p <> 2 ^ 32) by (intros C; apply (not_prime_mul (2 ^ 16) (2 ^ 16)); [lia | lia | rewrite C in Hpp; exact Hpp]).
    apply sieve_old_spec; try assumption; [lia | unfold current in *; lia | reflexivity]. }
  specialize (H1 H1'). apply run_total in H1. destruct H1 as [s1 [E1 HS1]]. rewrite E1. cbn [bind].
  unfold ext_sqrt. rewrite add_ok.
  2:{ rngs. assert (Z.sqrt sl < 2 ^ 63); [|lia]. apply Z.sqrt_lt_square; [lia | lia |].
      change (2 ^ 63 * 2 ^ 63) with (2 ^ 126). assert (2 ^ 64 <= 2 ^ 126) by (apply Z.pow_le_mono_r; lia). lia. }
  cbn [bind].
  pose proof (sieve_fold (sieve_new pf current sl len) (fun p => p * p) current sl
                (range_step current (Z.sqrt sl + 1) 2) s1) as H2.
  assert (H2' : forall p s, In p (range_step current (Z.sqrt sl + 1) 2) -> run False False (fun s' => forall i, 0 <= i ->
      (bit_get s' i = true <-> bit_get s i = true \/
         exists m, In m (range_step (p * p) sl (2 * p)) /\ current <= m /\ (m - current) / 2 = i))
      (sieve_new pf current sl len s p)).
  { intros p s Hp. apply range_step_in in Hp; [|lia]. destruct Hp as [k [Hk [Ep Hplt]]].
    apply sieve_new_spec; try assumption; [lia | nia | reflexivity]. }
  specialize (H2 H2'). apply run_total in H2. destruct H2 as [s2 [E2 HS2]]. rewrite E2. cbn [bind].
  eexists. split; [reflexivity|]. unfold buf_ok. cbn [b_list b_next]. split; [|lia].
  destruct (collect_spec current len s2 Hlen) as [HCs HCin].
  assert (HC : forall x, In x (collect current len s2) <-> prime x /\ current <= x < sl).
  { intros x. rewrite HCin. split.
    - intros [i [Hi [Ex Hb]]].
      assert (Hxodd : Z.odd x = true) by (rewrite Ex, Z.odd_add, Z.odd_mul, Hodd; destruct (Z.odd i); reflexivity).
      assert (Hxi : (x - current) / 2 = i).
      { rewrite Ex. replace (i * 2 + current - current) with (i * 2) by ring. apply Z.div_mul. lia. }
      split; [|lia]. destruct (prime_dec x) as [Hp|Hnp]; [exact Hp|]. exfalso.
      assert (Hbt : bit_get s2 i = true).
      { apply HS2; [lia|].
        destruct (sieve_complete (b_list b) current sl x HL Hodd H55 Hxodd ltac:(lia) Hnp) as [[p [m [A1 [A2 [A3 A4]]]]]|[p [m [A1 [A2 [A3 A4]]]]]].
        - left. apply HS1; [lia|]. right. exists p, m. subst m. auto.
        - right. exists p, m. subst m. auto. }
      congruence.
    - intros [Hp Hx].
      assert (Hxodd : Z.odd x = true).
      { destruct (Z.odd x) eqn:Eo; [reflexivity|]. exfalso.
        assert (Hd : (2 | x)). { exists (x / 2). pose proof (Z_div_mod_eq_full x 2). rewrite Zmod_odd, Eo in H. lia. }
        apply prime_divides_prime in Hd; [lia | apply prime_2 | exact Hp]. }
      assert (Hxe : (x - current) mod 2 = 0) by (rewrite Zmod_odd, Z.odd_sub, Hxodd, Hodd; reflexivity).
      assert (Hx2 : x - current = 2 * ((x - current) / 2)) by (pose proof (Z_div_mod_eq_full (x - current) 2); lia).
      exists ((x - current) / 2). split; [lia|]. split; [lia|].
      destruct (bit_get s2 ((x - current) / 2)) eqn:Eb; [|reflexivity]. exfalso.
      assert (Hm : forall m, Z.odd m = true -> current <= m -> (m - current) / 2 = (x - current) / 2 -> m = x).
      { intros m Hmo Hmc Hme. assert ((m - current) mod 2 = 0) by (rewrite Zmod_odd, Z.odd_sub, Hmo, Hodd; reflexivity).
        pose proof (Z_div_mod_eq_full (m - current) 2). lia. }
      apply HS2 in Eb; [|lia]. destruct Eb as [Eb|[p [m [A1 [A2 [A3 A4]]]]]].
      + apply HS1 in Eb; [|lia]. rewrite bit_get_empty in Eb. destruct Eb as [Eb|[p [m [A1 [A2 [A3 A4]]]]]]; [discriminate|].
        destruct (Htl p A1) as [Hpp Hpc]. pose proof (prime_ge2 p Hpp).
        assert (Hpo : Z.odd p = true).
        { destruct (Z.odd p) eqn:Eo; [reflexivity|]. exfalso.
          assert (Hd : (2 | p)). { exists (p / 2). pose proof (Z_div_mod_eq_full p 2). rewrite Zmod_odd, Eo in H0. lia. }
          apply prime_divides_prime in Hd; [|apply prime_2 | exact Hpp]. subst p.
          destruct (b_list b) as [|a l']; [destruct A1|]. cbn [tl] in A1.
          inversion HLs as [|a' l0 Hs' Hall]; subst. rewrite Forall_forall in Hall. specialize (Hall 2 A1).
          assert (prime a) by (apply HLin; left; reflexivity). pose proof (prime_ge2 a H0). lia. }
        assert (m = x).
        { apply Hm; [|exact A3 | exact A4]. apply range_step_in in A2; [|lia]. destruct A2 as [k [Hk [Em _]]].
          rewrite Em. unfold old_start. destruct (p * p <? current).
          - rewrite Z.odd_add, !Z.odd_mul, Hpo, lor1_odd by (apply Z.div_pos; lia).
            cbn [Z.odd andb]. destruct (Z.odd k); reflexivity.
          - rewrite Z.odd_add, !Z.odd_mul, Hpo. destruct (Z.odd k); reflexivity. }
        subst m. eapply (sieve_sound_old current p sl x); eauto; lia.
      + apply range_step_in in A1; [|lia]. destruct A1 as [k0 [Hk0 [Ep Hplt]]].
        assert (Hpo : Z.odd p = true) by (rewrite Ep, Z.odd_add, Z.odd_mul, Hodd; destruct (Z.odd k0); reflexivity).
        assert (m = x).
        { apply Hm; [|exact A3 | exact A4]. apply range_step_in in A2; [|lia]. destruct A2 as [k [Hk [Em _]]].
          rewrite Em. rewrite Z.odd_add, !Z.odd_mul, Hpo. destruct (Z.odd k); reflexivity. }
        subst m. eapply (sieve_sound_new p sl x); eauto; lia. }
  split; [split|].
  - apply sorted_app; [exact HLs | exact HCs |]. intros x y Hx Hy. apply HLin in Hx. apply HC in Hy. lia.
  - intros p. rewrite in_app_iff, HLin, HC. split.
    + intros [[A B]|[A B]]; split; auto; lia.
    + intros [A B]. destruct (Z.lt_ge_cases p current); [left | right]; auto.
  - split; [exact Hslodd | lia].
Qed.
