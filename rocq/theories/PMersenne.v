(** * Proofs about the list of Mersenne primes. *)
From Coq Require Import ZArith Znumtheory List Lia Bool Sorted.
From Verif Require Import Base Spec Ext Ops NT NTPock PBase PInteger POps MInteger MSieve MTraits MPrimality MIsPrime MExamples PSprp PIsPrime PIsPrime2 PNext PBuffer PropBuffer PropIsPrime PropSprp PTables.
Import ListNotations.
Local Open Scope Z_scope.

Definition exponents : list Z := [2; 3; 5; 7; 13; 17; 19; 31; 61; 89; 107; 127].
Definition mersenne_prime (p : Z) : bool := existsb (Z.eqb p) exponents.
Definition primes_128 : list Z := [2; 3; 5; 7; 11; 13; 17; 19; 23; 29; 31; 37; 41; 43; 47; 53; 59; 61; 67; 71; 73; 79; 83; 89; 97; 101; 103; 107; 109; 113; 127].

Lemma primes_128_eq : forall f pf, nt_primes f pf 128 = Ret primes_128.
Proof. intros [|] [|]; vm_compute; reflexivity. Qed.
Lemma small_mersenne : forallb (fun f => forallb (fun p => match is_prime64 f Release (2 ^ p - 1) with Ret b => Bool.eqb b (mersenne_prime p) | _ => false end) (filter (fun p => p <? 64) primes_128)) [BigTable; SmallTable] = true.
Proof. vm_compute. reflexivity. Qed.
Lemma large_composites : forallb (fun p => mersenne_prime p || match is_sprp (uops BigTable Release u128) (2 ^ p - 1) 3 with Ret b => negb b | _ => false end) (filter (fun p => 64 <? p) primes_128) = true.
Proof. vm_compute. reflexivity. Qed.
Lemma mersenne_31 : prime (2 ^ 31 - 1).
Proof. apply (pocklington _ [(331, 1, 3); (151, 1, 3)]); [vm_compute; reflexivity | nodup|]. constructor; [small_prime|]. constructor; [small_prime|]. constructor. Qed.
Lemma exponents_prime : forall p, In p exponents -> prime (2 ^ p - 1).
Proof.
  intros p H. unfold exponents in H. cbn [In] in H.
  destruct H as [<-|[<-|[<-|[<-|[<-|[<-|[<-|[<-|[<-|[<-|[<-|[<-|[]]]]]]]]]]]]]; first [exact mersenne_31 | exact mersenne_61 | exact mersenne_89 | exact mersenne_107 | exact mersenne_127 | small_prime].
Qed.
Lemma mersenne_prime_in : forall p, mersenne_prime p = true <-> In p exponents.
Proof. intros p. unfold mersenne_prime. rewrite existsb_exists. split; [intros [x [H E]]; apply Z.eqb_eq in E; subst; exact H | intros H; exists p; split; [exact H | apply Z.eqb_refl]]. Qed.
Lemma primes_128_in : forall p, In p primes_128 <-> prime p /\ p <= 128.
Proof.
  intros p. destruct (C02_primes_function_exact BigTable Release 128 ltac:(lia)) as [l [E [_ H]]]. rewrite primes_128_eq in E. injection E as <-. apply H.
Qed.
Lemma mersenne_range : forall p, In p primes_128 -> 2 <= p <= 127.
Proof. intros p H. unfold primes_128 in H. cbn [In] in H. lia. Qed.
Lemma mersenne_odd : forall p, 2 <= p -> Z.odd (2 ^ p - 1) = true.
Proof. intros p Hp. rewrite Z.odd_sub, Z.odd_pow by lia. reflexivity. Qed.
Lemma large_composite : forall p, In p primes_128 -> 64 < p -> mersenne_prime p = false -> z_sprp (2 ^ p - 1) 3 = false.
Proof.
  intros p H L N. pose proof large_composites as C. rewrite forallb_forall in C. specialize (C p ltac:(apply filter_In; split; [exact H | apply Z.ltb_lt, L])). rewrite N in C. cbn [orb] in C.
  pose proof (mersenne_range p H) as R. assert (B : 2 ^ 64 <= 2 ^ p <= 2 ^ 127) by (split; apply Z.pow_le_mono_r; lia).
  rewrite (is_sprp_law _ _ _ _ _ (uops_lawful BigTable Release u128) (valid_one u128 ltac:(cbn; auto)) (2 ^ p - 1) 3 (2 ^ p - 1) 3) in C; [apply negb_true_iff, C | split; [reflexivity | rngs; lia] | split; [reflexivity | rngs; lia] | cbv beta; lia | lia].
Qed.
Lemma small_value : forall f p, In p primes_128 -> p < 64 -> z_is_prime64 f (2 ^ p - 1) = mersenne_prime p.
Proof.
  intros f p H L. pose proof small_mersenne as C. rewrite forallb_forall in C. specialize (C f ltac:(destruct f; [left | right; left]; reflexivity)). rewrite forallb_forall in C. specialize (C p ltac:(apply filter_In; split; [exact H | apply Z.ltb_lt, L])).
  assert (B : 2 ^ p < 2 ^ 64) by (pose proof (mersenne_range p H); apply Z.pow_lt_mono_r; lia). rewrite is_prime64_law in C by lia. apply Bool.eqb_prop, C.
Qed.
Lemma mersenne_exact : forall p, In p primes_128 -> (mersenne_prime p = true <-> prime (2 ^ p - 1)).
Proof.
  intros p H. split; [intros E; apply exponents_prime, mersenne_prime_in, E|]. intros P. pose proof (mersenne_range p H) as R. destruct (Z.lt_ge_cases p 64) as [L|L].
  - rewrite <- (small_value BigTable p H L). apply z_is_prime64_complete, P.
  - destruct (mersenne_prime p) eqn:E; [reflexivity|]. assert (L' : 64 < p) by (destruct (Z.eq_dec p 64) as [->|]; [unfold primes_128 in H; cbn [In] in H; lia | lia]).
    pose proof (large_composite p H L' E) as S. assert (B : 2 ^ 64 <= 2 ^ p) by (apply Z.pow_le_mono_r; lia). pose proof (mersenne_odd p ltac:(lia)) as Ho. assert (T : z_sprp (2 ^ p - 1) 3 = true); [|congruence].
    apply z_sprp_spec; [lia | exact Ho|]. apply prime_strong_prp; [exact P | exact Ho|]. intros C. apply Z.divide_pos_le in C; lia.
Qed.

(** One test, for an exponent of the list. *)
Lemma mersenne_small : forall f pf lf p dr, In p primes_128 -> p < 64 -> prime_probably f pf u128 lf (2 ^ p - 1) None dr = Ret (mersenne_prime p, dr).
Proof.
  intros f pf lf p dr H L. pose proof (mersenne_range p H) as R. assert (B : 2 ^ p < 2 ^ 64) by (apply Z.pow_lt_mono_r; lia). pose proof (Z.pow_pos_nonneg 2 p ltac:(lia) ltac:(lia)).
  unfold prime_probably, nt_is_prime. rewrite (is_prime_small f pf _ no_probs u128 _ _ _ (uops_lawful f pf u128) ltac:(cbn; auto) lf _ (2 ^ p - 1) (2 ^ p - 1) None dr) by (try (split; [reflexivity | rngs; lia]); lia).
  cbn [bind]. rewrite small_value by assumption. destruct (mersenne_prime p); reflexivity.
Qed.
Lemma mersenne_large : forall f pf lf p dr, In p primes_128 -> 64 <= p ->
  prime_probably f pf u128 lf (2 ^ p - 1) None dr = ('(ws, dr') <- random_witnesses 3 dr [2; 3] ;; Ret (forallb (z_sprp (2 ^ p - 1)) ws, dr')).
Proof.
  intros f pf lf p dr H L. pose proof (mersenne_range p H) as R. assert (L' : 64 < p) by (destruct (Z.eq_dec p 64) as [->|]; [unfold primes_128 in H; cbn [In] in H; lia | lia]).
  assert (B : 2 ^ 65 <= 2 ^ p <= 2 ^ 127) by (split; apply Z.pow_le_mono_r; lia). change (2 ^ 65) with (2 * 2 ^ 64) in B.
  unfold prime_probably, nt_is_prime. rewrite (is_prime_large f pf _ no_probs u128 _ _ _ (uops_lawful f pf u128) ltac:(cbn; auto) lf _ (2 ^ p - 1) (2 ^ p - 1) None dr); [| split; [reflexivity | rngs; lia] | cbv beta; lia | apply mersenne_odd; lia | lia | intros w Hw; apply new_buf_range in Hw; lia].
  cbv zeta. replace (fixed_witnesses (the_config None) (buf_iter (buf_new f))) with [2; 3] by (destruct f; reflexivity). cbn [the_config]. change (draw_witnesses pc_default dr [2; 3]) with (random_witnesses 3 dr [2; 3]).
  destruct (random_witnesses 3 dr [2; 3]) as [[ws dr']| |]; cbn [bind]; [|reflexivity ..]. destruct (forallb _ ws); cbn [negb]; reflexivity.
Qed.
Lemma witnesses_verdict : forall p dr ws dr', In p primes_128 -> 64 <= p -> (forall x, In x dr -> x mod 2 ^ 64 <> 0) -> random_witnesses 3 dr [2; 3] = Ret (ws, dr') -> forallb (z_sprp (2 ^ p - 1)) ws = mersenne_prime p.
Proof.
  intros p dr ws dr' H L Hd E. pose proof (mersenne_range p H) as R. assert (L' : 64 < p) by (destruct (Z.eq_dec p 64) as [->|]; [unfold primes_128 in H; cbn [In] in H; lia | lia]).
  assert (B : 2 ^ 65 <= 2 ^ p <= 2 ^ 127) by (split; apply Z.pow_le_mono_r; lia). change (2 ^ 65) with (2 * 2 ^ 64) in B. pose proof (mersenne_odd p ltac:(lia)) as Ho.
  apply random_witnesses_spec in E. destruct E as [rnd [-> [_ [_ [Hr _]]]]]. destruct (mersenne_prime p) eqn:M.
  - apply forallb_forall. intros w Hw. apply mersenne_exact in M; [|exact H].
    assert (W : 0 < w < 2 ^ 64).
    { apply in_app_or in Hw. destruct Hw as [[<-|[<-|[]]]|Hw]; [lia | lia|]. apply Hr in Hw. destruct Hw as [_ [Hw [x [Hx Ex]]]]. specialize (Hd x Hx). lia. }
    apply z_sprp_spec; [lia | exact Ho|]. apply prime_strong_prp; [exact M | exact Ho|]. intros C. apply Z.divide_pos_le in C; lia.
  - cbn [app forallb]. rewrite (large_composite p H L' M), andb_false_l, andb_false_r. reflexivity.
Qed.

Lemma mersenne_arg : forall f pf lf acc dr p, In p primes_128 -> mersenne_step f pf lf (acc, dr) p = ('(b, dr2) <- prime_probably f pf u128 lf (2 ^ p - 1) None dr ;; Ret (if b : bool then acc ++ [p] else acc, dr2)).
Proof.
  intros f pf lf acc dr p H. pose proof (mersenne_range p H) as R. assert (B : 2 ^ 2 <= 2 ^ p <= 2 ^ 127) by (split; apply Z.pow_le_mono_r; lia). unfold mersenne_step. rewrite Z.mod_small by lia.
  rewrite wrapz_ok by (rngs; lia). cbn [bind]. rewrite sub_ok by (rngs; lia). reflexivity.
Qed.
Lemma list_mersenne_fold : forall f pf lf dr, list_mersenne f pf lf dr = foldM (mersenne_step f pf lf) primes_128 ([], dr).
Proof. intros f pf lf dr. unfold list_mersenne. rewrite primes_128_eq. reflexivity. Qed.
Lemma mersenne_fold : forall f pf lf ps acc dr, incl ps primes_128 -> (forall x, In x dr -> x mod 2 ^ 64 <> 0) ->
  run False True (fun '(l, _) => l = acc ++ filter mersenne_prime ps) (foldM (mersenne_step f pf lf) ps (acc, dr)).
Proof.
  intros f pf lf. induction ps as [|p ps IH]; intros acc dr I Hd; cbn [foldM filter]; [cbn [run]; rewrite app_nil_r; reflexivity|].
  assert (H : In p primes_128) by (apply I; left; reflexivity). assert (I' : incl ps primes_128) by (intros x Hx; apply I; right; exact Hx). rewrite mersenne_arg by exact H.
  assert (G : forall dr', incl dr' dr -> run False True (fun '(l, _) => l = acc ++ (if mersenne_prime p then p :: filter mersenne_prime ps else filter mersenne_prime ps)) (foldM (mersenne_step f pf lf) ps (if mersenne_prime p then acc ++ [p] else acc, dr'))).
  { intros dr' Hi. specialize (IH (if mersenne_prime p then acc ++ [p] else acc) dr' I' ltac:(intros x Hx; apply Hd, Hi, Hx)). eapply run_mono; [exact IH | auto | auto |]. intros [l d] ->. destruct (mersenne_prime p); [rewrite <- app_assoc; reflexivity | reflexivity]. }
  destruct (Z.lt_ge_cases p 64) as [L|L].
  - rewrite mersenne_small by assumption. cbn [bind]. apply G, incl_refl.
  - rewrite mersenne_large by assumption. destruct (random_witnesses 3 dr [2; 3]) as [[ws dr']| |] eqn:E; cbn [bind]; [|exfalso; eapply random_not_panic, E | exact Logic.I].
    rewrite (witnesses_verdict p dr ws dr' H L Hd E). apply G. eapply random_skip, E.
Qed.

Lemma fresh_now : forall x dr ws, (forall w, In w ws -> w <> x mod 2 ^ 64) -> fresh_witness (x :: dr) ws = Ret (x mod 2 ^ 64, dr).
Proof.
  intros x dr ws H. cbn [fresh_witness]. replace (existsb (Z.eqb (x mod 2 ^ 64)) ws) with false; [reflexivity|]. symmetry. apply not_true_is_false. intros C. apply existsb_exists in C. destruct C as [w [Hw E]]. apply Z.eqb_eq in E. exact (H w Hw (eq_sym E)).
Qed.
Lemma three_fresh : forall dr, (forall x, In x dr -> 3 < x mod 2 ^ 64) -> NoDup (map (fun x => x mod 2 ^ 64) dr) -> (3 <= length dr)%nat -> exists ws, random_witnesses 3 dr [2; 3] = Ret (ws, skipn 3 dr).
Proof.
  intros [|a [|b [|c dr]]] Hd ND HL; cbn [length] in HL; try lia. pose proof (Hd a ltac:(cbn; auto)) as Ha. pose proof (Hd b ltac:(cbn; auto)) as Hb. pose proof (Hd c ltac:(cbn; auto)) as Hc.
  cbn [map] in ND. inversion ND as [|? ? N1 ND1]; subst. inversion ND1 as [|? ? N2 _]; subst. cbn [In] in N1, N2. eexists. cbn [random_witnesses skipn].
  rewrite fresh_now by (intros w Hw; cbn [In] in Hw; intuition lia). cbn [bind app]. rewrite fresh_now by (intros w Hw; cbn [In] in Hw; intuition lia). cbn [bind app]. rewrite fresh_now by (intros w Hw; cbn [In] in Hw; intuition lia). reflexivity.
Qed.
Lemma skipn_in : forall A k (l : list A) x, In x (skipn k l) -> In x l.
Proof. intros A k l x H. rewrite <- (firstn_skipn k l). apply in_or_app. right. exact H. Qed.
Lemma skipn_nodup : forall A k (l : list A), NoDup l -> NoDup (skipn k l).
Proof. intros A. induction k as [|k IH]; intros l H; [exact H|]. destruct l as [|x l]; [constructor|]. cbn [skipn]. apply IH. inversion H; assumption. Qed.
Lemma skipn_skipn' : forall A a b (l : list A), skipn a (skipn b l) = skipn (b + a) l.
Proof. intros A a. induction b as [|b IH]; intros l; [reflexivity|]. destruct l as [|x l]; [destruct a; reflexivity | apply IH]. Qed.
Lemma mersenne_fold_returns : forall f pf lf ps acc dr, incl ps primes_128 -> (forall x, In x dr -> 3 < x mod 2 ^ 64) -> NoDup (map (fun x => x mod 2 ^ 64) dr) ->
  (3 * length (filter (Z.leb 64) ps) <= length dr)%nat ->
  foldM (mersenne_step f pf lf) ps (acc, dr) = Ret (acc ++ filter mersenne_prime ps, skipn (3 * length (filter (Z.leb 64) ps)) dr).
Proof.
  intros f pf lf. induction ps as [|p ps IH]; intros acc dr I Hd ND HL; cbn [foldM filter]; [rewrite app_nil_r; reflexivity|].
  assert (H : In p primes_128) by (apply I; left; reflexivity). assert (I' : incl ps primes_128) by (intros x Hx; apply I; right; exact Hx). rewrite mersenne_arg by exact H. cbn [filter] in HL.
  assert (A : forall b : bool, (if b then acc ++ [p] else acc) ++ filter mersenne_prime ps = acc ++ (if b then p :: filter mersenne_prime ps else filter mersenne_prime ps)) by (intros [|]; [rewrite <- app_assoc|]; reflexivity).
  destruct (Z.leb_spec 64 p) as [L|L].
  - cbn [length] in *. rewrite mersenne_large by assumption. destruct (three_fresh dr Hd ND ltac:(lia)) as [ws E]. rewrite E. cbn [bind].
    rewrite (witnesses_verdict p dr ws _ H L ltac:(intros x Hx C; specialize (Hd x Hx); lia) E).
    rewrite IH; [| exact I' | intros x Hx; apply Hd, (skipn_in _ 3), Hx | rewrite <- skipn_map; apply skipn_nodup, ND | rewrite skipn_length; lia].
    rewrite A. do 2 f_equal. rewrite skipn_skipn'. f_equal. lia.
  - rewrite mersenne_small by assumption. cbn [bind]. rewrite IH by assumption. rewrite A. reflexivity.
Qed.
Lemma list_mersenne_run : forall f pf lf dr, (forall x, In x dr -> x mod 2 ^ 64 <> 0) -> run False True (fun '(l, _) => l = filter mersenne_prime primes_128) (list_mersenne f pf lf dr).
Proof. intros f pf lf dr H. rewrite list_mersenne_fold. eapply run_mono; [exact (mersenne_fold f pf lf primes_128 [] dr (incl_refl _) H) | auto | auto |]. intros [l d] ->. reflexivity. Qed.
Lemma list_mersenne_returns : forall f pf lf dr, (forall x, In x dr -> 3 < x mod 2 ^ 64) -> NoDup (map (fun x => x mod 2 ^ 64) dr) -> (39 <= length dr)%nat -> list_mersenne f pf lf dr = Ret (exponents, skipn 39 dr).
Proof.
  intros f pf lf dr Hd ND HL. assert (L : length (filter (Z.leb 64) primes_128) = 13%nat) by (vm_compute; reflexivity). assert (M : filter mersenne_prime primes_128 = exponents) by (vm_compute; reflexivity).
  rewrite list_mersenne_fold, mersenne_fold_returns; [rewrite L, M; reflexivity | apply incl_refl | exact Hd | exact ND | rewrite L; exact HL].
Qed.
Lemma primes_128_sorted : StronglySorted Z.lt primes_128.
Proof. unfold primes_128. repeat (constructor; [|repeat (constructor; [lia|]); constructor]). constructor. Qed.
Lemma mersenne_filter_in : forall p, In p (filter mersenne_prime primes_128) <-> prime p /\ p < 128 /\ prime (2 ^ p - 1).
Proof.
  intros p. rewrite filter_In. split.
  - intros [A B]. pose proof (mersenne_range p A). apply (mersenne_exact p A) in B. apply primes_128_in in A. split; [apply A|]. split; [lia | exact B].
  - intros [A [B C]]. assert (D : In p primes_128) by (apply primes_128_in; split; [exact A | lia]). split; [exact D | apply (mersenne_exact p D), C].
Qed.
(** A zero among the witnesses for 89 hides 2^89 - 1. *)
Definition before_89 : list Z := [2; 3; 5; 7; 11; 13; 17; 19; 23; 29; 31; 37; 41; 43; 47; 53; 59; 61; 67; 71; 73; 79; 83].
Definition after_89 : list Z := [97; 101; 103; 107; 109; 113; 127].
Lemma fresh_list : forall a k, (3 < a)%nat -> (a + k < 2 ^ 10)%nat -> (forall x, In x (map Z.of_nat (seq a k)) -> 3 < x mod 2 ^ 64) /\ NoDup (map (fun x => x mod 2 ^ 64) (map Z.of_nat (seq a k))).
Proof.
  intros a k Ha Hk. change (2 ^ 10)%nat with 1024%nat in Hk. split.
  - intros x Hx. apply in_map_iff in Hx. destruct Hx as [i [<- Hi]]. apply in_seq in Hi. rewrite Z.mod_small; lia.
  - rewrite map_map. revert a Ha Hk. induction k as [|k IH]; intros a Ha Hk; cbn [seq map]; constructor; [|apply IH; lia].
    intros C. apply in_map_iff in C. destruct C as [i [E Hi]]. apply in_seq in Hi. rewrite !Z.mod_small in E by lia. lia.
Qed.
Lemma fresh_app : forall dr ws w dr' tl, fresh_witness dr ws = Ret (w, dr') -> fresh_witness (dr ++ tl) ws = Ret (w, dr' ++ tl).
Proof. induction dr as [|x dr IH]; intros ws w dr' tl H; cbn [fresh_witness app] in *; [discriminate|]. destruct (existsb _ ws); [apply IH, H | injection H as <- <-; reflexivity]. Qed.
Lemma random_app : forall k dr ws ws' dr' tl, random_witnesses k dr ws = Ret (ws', dr') -> random_witnesses k (dr ++ tl) ws = Ret (ws', dr' ++ tl).
Proof.
  induction k as [|k IH]; intros dr ws ws' dr' tl H; cbn [random_witnesses] in *; [injection H as <- <-; reflexivity|]. destruct (fresh_witness dr ws) as [[w d]| |] eqn:E; cbn [bind] in H; try discriminate.
  rewrite (fresh_app _ _ _ _ tl E). cbn [bind]. apply IH, H.
Qed.
Lemma mersenne_fold_app : forall f pf lf tl ps acc dr l dr', incl ps primes_128 -> foldM (mersenne_step f pf lf) ps (acc, dr) = Ret (l, dr') -> foldM (mersenne_step f pf lf) ps (acc, dr ++ tl) = Ret (l, dr' ++ tl).
Proof.
  intros f pf lf tl. induction ps as [|p ps IH]; intros acc dr l dr' I H; cbn [foldM] in *; [injection H as <- <-; reflexivity|].
  assert (Hp : In p primes_128) by (apply I; left; reflexivity). assert (I' : incl ps primes_128) by (intros x Hx; apply I; right; exact Hx). rewrite mersenne_arg in H |- * by exact Hp.
  destruct (Z.lt_ge_cases p 64) as [L|L].
  - rewrite mersenne_small in H |- * by assumption. cbn [bind] in *. apply IH; assumption.
  - rewrite mersenne_large in H |- * by assumption. destruct (random_witnesses 3 dr [2; 3]) as [[ws d]| |] eqn:E; cbn [bind] in H; try discriminate. rewrite (random_app _ _ _ _ _ tl E). cbn [bind]. apply IH; assumption.
Qed.
Lemma foldM_app : forall A B (g : A -> B -> res A) l1 l2 a, foldM g (l1 ++ l2) a = (a' <- foldM g l1 a ;; foldM g l2 a').
Proof. intros A B g. induction l1 as [|x l1 IH]; intros l2 a; cbn [app foldM bind]; [reflexivity|]. destruct (g a x); cbn [bind]; [apply IH | reflexivity | reflexivity]. Qed.
Lemma sprp_89_zero : z_sprp (2 ^ 89 - 1) 0 = false.
Proof.
  assert (G : forall a b : bool, Ret a = Ret b -> a = b) by (intros a b H; congruence).
  assert (C : is_sprp (uops BigTable Release u128) (2 ^ 89 - 1) 0 = Ret false) by (vm_compute; reflexivity).
  rewrite (is_sprp_law _ _ _ _ _ (uops_lawful BigTable Release u128) (valid_one u128 ltac:(cbn; auto)) (2 ^ 89 - 1) 0 (2 ^ 89 - 1) 0) in C; [exact (G _ _ C) | split; [reflexivity | rngs; lia] | split; [reflexivity | rngs; lia] | cbv beta; lia | lia].
Qed.
Lemma hidden : forall n, z_sprp n 0 = false -> forallb (z_sprp n) [2; 3; 0; 4; 5] = false.
Proof. intros n H. cbn [forallb]. rewrite H, !andb_false_r. reflexivity. Qed.
Lemma zero_draw : forall f pf lf,
  list_mersenne f pf lf (map Z.of_nat (seq 4 15) ++ 0 :: map Z.of_nat (seq 4 23)) = Ret ([2; 3; 5; 7; 13; 17; 19; 31; 61; 107; 127], []).
Proof.
  intros f pf lf.
  destruct (fresh_list 4 15 ltac:(lia) ltac:(apply Nat.ltb_lt; reflexivity)) as [F1 N1]. destruct (fresh_list 6 21 ltac:(lia) ltac:(apply Nat.ltb_lt; reflexivity)) as [F2 N2].
  rewrite list_mersenne_fold. assert (P : primes_128 = before_89 ++ 89 :: after_89) by reflexivity. rewrite P, foldM_app.
  assert (I1 : incl before_89 primes_128) by (rewrite P; apply incl_appl, incl_refl). assert (I2 : incl after_89 primes_128) by (rewrite P; apply incl_appr, incl_tl, incl_refl).
  assert (H89 : In 89 primes_128) by (rewrite P; apply in_or_app; right; left; reflexivity). clear P.
  assert (L1 : length (filter (Z.leb 64) before_89) = 5%nat) by (vm_compute; reflexivity). assert (L2 : length (filter (Z.leb 64) after_89) = 7%nat) by (vm_compute; reflexivity).
  assert (M1 : filter mersenne_prime before_89 = [2; 3; 5; 7; 13; 17; 19; 31; 61]) by (vm_compute; reflexivity). assert (M2 : filter mersenne_prime after_89 = [107; 127]) by (vm_compute; reflexivity).
  pose proof (mersenne_fold_returns f pf lf before_89 [] (map Z.of_nat (seq 4 15)) I1 F1 N1 ltac:(rewrite L1, map_length, seq_length; lia)) as S1. rewrite L1, M1 in S1. pose proof (mersenne_fold_app _ _ _ (0 :: map Z.of_nat (seq 4 23)) _ _ _ _ _ I1 S1) as S2. unfold draws in S2 |- *. rewrite S2.
  cbn [bind foldM]. rewrite mersenne_arg by exact H89. rewrite mersenne_large by (try exact H89; lia).
  assert (W : random_witnesses 3 (skipn (3 * 5) (map Z.of_nat (seq 4 15)) ++ 0 :: map Z.of_nat (seq 4 23)) [2; 3] = Ret ([2; 3; 0; 4; 5], map Z.of_nat (seq 6 21))) by (vm_compute; reflexivity).
  rewrite W. cbn [bind]. rewrite (hidden _ sprp_89_zero). cbv iota.
  rewrite (mersenne_fold_returns f pf lf after_89 _ _ I2 F2 N2); [|rewrite L2, map_length, seq_length; lia]. rewrite L2, M2. reflexivity.
Qed.
