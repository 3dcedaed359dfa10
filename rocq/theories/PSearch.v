(** * How many passes the search for a divisor can make: the budget doubles every three passes and overflows usize after 192 of them. *)
From Coq Require Import ZArith Znumtheory Zpow_facts List Lia Bool Sorted.
From Verif Require Import Base Tables Spec Ext NT NTRabin PBase PTables MInteger PInteger Ops POps MPrimality MTraits PSprp PropSprp MFactor MSieve MIsPrime NTLucas NTResidue PLucas PLucas2 PLucas3 PropMint PIsPrime PIsPrime2 MFactorize PFactor PFactor2 PSqufof PFactorize PFactorize2 PDraws PHart PHart2.
Import ListNotations.
Open Scope Z_scope.

Lemma run_any : forall A (m : res A), run True True (fun _ => True) m.
Proof. intros A [a| |]; exact I. Qed.

Section Search.
Variables (f : feature) (pf : profile) (fuel w target : Z).
Hypothesis (Hv : valid_ity (U w)).
Hypothesis (Ht : 32 <= target < 2 ^ w).
Hypothesis (Hg : Z.gcd target MULT_LCM = 1).
Hypothesis (Hsq : ~ exists s, s * s = target).

Lemma gcd_mult : forall k, In k SQUFOF_MULTIPLIERS -> Z.gcd target k = 1.
Proof.
  intros k Hk. destruct (multipliers_divide k Hk) as [Hk0 [c Hc]]. apply Zgcd_1_rel_prime. apply Zgcd_1_rel_prime in Hg. rewrite Hc in Hg. apply rel_prime_sym. eapply rel_prime_div; [apply rel_prime_sym, Hg | apply Z.divide_factor_r].
Qed.
Lemma mult_not_square : forall k, In k SQUFOF_MULTIPLIERS -> ~ exists r, r * r = target * k.
Proof.
  intros k Hk [r C]. destruct (multipliers_divide k Hk) as [Hk0 _]. apply Hsq. apply (coprime_square k target r); [lia | lia | apply gcd_mult; exact Hk | lia].
Qed.
Definition mul480 : Z := match checked (U w) (target * 480) with Some m => m | None => target end.
Lemma mul480_spec : in_range (U w) mul480 /\ target <= mul480 /\ (target | mul480).
Proof.
  unfold mul480. destruct (checked (U w) (target * 480)) as [m|] eqn:E.
  - apply checked_inv in E. destruct E as [-> E]. split; [exact E|]. split; [lia|]. apply Z.divide_factor_l.
  - cbn [in_range]. split; [lia|]. split; [lia | apply Z.divide_refl].
Qed.
Lemma bits_range : forall x, 32 <= x < 2 ^ w -> 1 <= bt_bits x / 6 < 22.
Proof.
  intros x Hx. unfold bt_bits. replace (x =? 0) with false by (symmetry; apply Z.eqb_neq; lia). cbn [valid_ity] in Hv.
  assert (Z.log2 x < 128) by (apply Z.log2_lt_pow2; [lia|]; assert (2 ^ w <= 2 ^ 128) by (apply Z.pow_le_mono_r; lia); lia).
  assert (Z.log2 32 <= Z.log2 x) by (apply Z.log2_le_mono; lia). change (Z.log2 32) with 5 in *. split; [apply Z.div_le_lower_bound; lia | apply Z.div_lt_upper_bound; lia].
Qed.

(** *** The budget has overflowed *)
Definition spent (st : Z * Z * draws) : Prop := let '(i, ratio, _) := st in 0 <= i /\ (ratio = 0 \/ (189 <= i <= 191 /\ ratio = 2 ^ 63)).

Lemma shl_spent : forall ratio x, 32 <= x < 2 ^ w -> ratio = 0 \/ ratio = 2 ^ 63 -> shl_ pf usize ratio (bt_bits x / 6) = Ret 0.
Proof.
  intros ratio x Hx Hr. pose proof (bits_range x Hx) as Hb. unfold shl_, usize.
  replace ((0 <=? bt_bits x / 6) && (bt_bits x / 6 <? 64)) with true by (symmetry; apply andb_true_iff; split; [apply Z.leb_le | apply Z.ltb_lt]; lia).
  f_equal. rewrite Z.shiftl_mul_pow2 by lia. destruct Hr as [-> | ->]; [reflexivity|]. replace (bt_bits x / 6) with (1 + (bt_bits x / 6 - 1)) by lia. rewrite Z.pow_add_r by lia.
  replace (2 ^ 63 * (2 ^ 1 * 2 ^ (bt_bits x / 6 - 1))) with (2 ^ (bt_bits x / 6 - 1) * 2 ^ 64) by (change (2 ^ 64) with (2 ^ 63 * 2 ^ 1); ring). apply Z.mod_mul. lia.
Qed.
Lemma squfof_spent : forall ks ratio, (forall k, In k ks -> In k SQUFOF_MULTIPLIERS) -> ratio = 0 \/ ratio = 2 ^ 63 ->
  run True True (fun o => o = None) (squfof_multi f pf fuel (U w) ks target ratio).
Proof.
  induction ks as [|k ks IH]; intros ratio Hks Hr; cbn [squfof_multi]; [reflexivity|].
  assert (Hk : In k SQUFOF_MULTIPLIERS) by (apply Hks; left; reflexivity).
  assert (IH' : run True True (fun o => o = None) (squfof_multi f pf fuel (U w) ks target ratio)) by (apply IH; [intros q Hq; apply Hks; right; exact Hq | exact Hr]).
  destruct (checked (U w) (target * k)) as [mt|] eqn:Ec; [|exact IH']. apply checked_inv in Ec. destruct Ec as [Em Hrg].
  apply run_bind. apply (run_mono _ True True _ _ (fun y => y = 0)); [| auto | auto |].
  { unfold mul_, wrapz, usize. destruct Hr as [-> | ->]; [exact eq_refl|]. destruct pf; [exact I | reflexivity]. }
  intros r2 ->. cbn [Z.mul]. change (mul_ pf usize 0 (ext_sqrt (ext_sqrt mt))) with (@Ret Z 0). cbn [bind].
  apply run_bind. apply (run_mono _ True True _ _ (fun x : option Z * Z => fst x = None)); [| auto | auto |].
  - unfold squfof. destruct (rem_ mt target) as [m| |]; [|exact I|exact I]. cbn [bind]. destruct (negb (m =? 0)); [exact I|].
    unfold ext_sqrt. assert (S0 : 0 <= mt) by (cbn [in_range] in Hrg; lia). pose proof (Z.sqrt_spec mt S0) as [S1 S2].
    rewrite mul_ok by (cbn [in_range] in *; pose proof (Z.sqrt_nonneg mt); nia). cbn [bind]. rewrite sub_ok by (cbn [in_range] in *; pose proof (Z.sqrt_nonneg mt); nia). cbn [bind].
    destruct (Z.eqb_spec (mt - Z.sqrt mt * Z.sqrt mt) 0) as [C|C]; [exfalso; apply (mult_not_square k Hk); exists (Z.sqrt mt); lia|].
    rewrite iter_le0 by lia. reflexivity.
  - intros [o j] Ho. cbn [fst] in Ho. subst o. exact IH'.
Qed.

Lemma spent_step : forall st, spent st -> run True True (fun r => match r with Next st' => spent st' | Done _ => False end) (method_step f pf fuel w target st).
Proof.
  intros [[i ratio] dr] [Hi Hr]. assert (Hr' : ratio = 0 \/ ratio = 2 ^ 63) by tauto. unfold method_step.
  apply run_bind. apply (run_mono _ True True _ _ (fun x : option Z * draws => fst x = None)); [| auto | auto |].
  - destruct (i mod 3 =? 0).
    + destruct (draw w dr) as [[r1 d1]| |]; [|exact I|exact I]. cbn [bind]. destruct (draw w d1) as [[r2 d2]| |]; [|exact I|exact I]. cbn [bind].
      destruct (reduced_new r1 target) as [s| |]; [|exact I|exact I]. cbn [bind]. destruct (reduced_new r2 target) as [o| |]; [|exact I|exact I]. cbn [bind].
      rewrite shl_spent by (auto; lia). cbn [bind]. unfold pollard_rho. destruct (o_one (mops pf (U w))) as [one| |]; [|exact I|exact I]. cbn [bind].
      destruct (o_rem (mops pf (U w)) one (ML target)) as [z| |]; [|exact I|exact I]. cbn [bind iter]. reflexivity.
    + destruct (i mod 3 =? 1).
      * fold mul480. destruct mul480_spec as [M1 [M2 M3]]. cbn [in_range] in M1. rewrite shl_spent by (auto; lia). cbn [bind]. unfold one_line.
        destruct (rem_ mul480 target) as [m| |]; [|exact I|exact I]. cbn [bind]. destruct (negb (m =? 0)); [exact I|]. rewrite iter_le0 by lia. reflexivity.
      * apply run_bind. eapply run_mono; [apply (squfof_spent SQUFOF_MULTIPLIERS ratio); auto | auto | auto |]. intros o ->. reflexivity.
  - intros [o dr'] Ho. cbn [fst] in Ho. subst o. unfold add_ at 1, wrapz at 1. destruct (in_rangeb usize (i + 1)) eqn:Ein.
    + cbn [bind]. destruct Hr as [->|[Hi2 ->]].
      * destruct ((i + 1) mod 3 =? 0); [change (mul_ pf usize 0 2) with (@Ret Z 0)|]; cbn [bind run spent]; split; try lia; left; reflexivity.
      * destruct (Z.eqb_spec ((i + 1) mod 3) 0) as [E|E].
        -- unfold mul_, wrapz. change (in_rangeb usize (2 ^ 63 * 2)) with false. cbv iota. destruct pf; [exact I|]. change (2 ^ 63 * 2) with (2 ^ 64). cbn [bind]. unfold usize. rewrite Z_mod_same_full. cbn [run spent]. split; [lia | left; reflexivity].
        -- cbn [bind run spent]. split; [lia|]. right. split; [|reflexivity]. assert (i <> 191) by (intros ->; apply E; reflexivity). lia.
    + destruct pf; [exact I|]. cbn [bind usize]. assert (E0 : ratio = 0). { destruct Hr as [->|[Hi2 _]]; [reflexivity|]. exfalso. assert (C : in_rangeb usize (i + 1) = true) by (apply in_rangeb_spec; cbn [usize in_range]; lia). congruence. }
      subst ratio. pose proof (Z.mod_pos_bound (i + 1) (2 ^ 64) ltac:(lia)). destruct (((i + 1) mod 2 ^ 64) mod 3 =? 0); [change (mul_ Release usize 0 2) with (@Ret Z 0)|]; cbn [bind run spent]; split; try lia; left; reflexivity.
Qed.

(** *** Before that *)
Lemma ratio_next : forall k, 0 <= k -> (if (k + 1) mod 3 =? 0 then 2 ^ (k / 3) * 2 else 2 ^ (k / 3)) = 2 ^ ((k + 1) / 3).
Proof.
  intros k Hk. pose proof (Z.div_mod k 3 ltac:(lia)). pose proof (Z.mod_pos_bound k 3 ltac:(lia)). pose proof (Z.div_mod (k + 1) 3 ltac:(lia)). pose proof (Z.mod_pos_bound (k + 1) 3 ltac:(lia)).
  destruct (Z.eqb_spec ((k + 1) mod 3) 0) as [E|E].
  - replace ((k + 1) / 3) with (k / 3 + 1) by lia. rewrite Z.pow_add_r, Z.pow_1_r by (try apply Z.div_pos; lia). reflexivity.
  - f_equal. lia.
Qed.
Definition early (k : Z) (st : Z * Z * draws) : Prop := let '(i, ratio, _) := st in i = k /\ ratio = 2 ^ (k / 3).
Lemma early_step : forall k st, 0 <= k < 189 -> early k st -> run True True (fun r => match r with Next st' => early (k + 1) st' | Done _ => True end) (method_step f pf fuel w target st).
Proof.
  intros k [[i ratio] dr] Hk [-> ->]. unfold method_step. apply run_bind. eapply run_mono; [apply run_any | auto | auto |]. intros [o dr'] _. destruct o as [p|]; [exact I|].
  rewrite add_ok by (cbn [usize in_range]; lia). cbn [bind].
  assert (B : 0 < 2 ^ (k / 3) <= 2 ^ 62) by (split; [apply Z.pow_pos_nonneg; [lia | apply Z.div_pos; lia] | apply Z.pow_le_mono_r; [lia|]; apply Z.lt_succ_r, Z.div_lt_upper_bound; lia]).
  assert (G : (if (k + 1) mod 3 =? 0 then mul_ pf usize (2 ^ (k / 3)) 2 else Ret (2 ^ (k / 3))) = Ret (2 ^ ((k + 1) / 3))).
  { rewrite <- ratio_next by lia. destruct ((k + 1) mod 3 =? 0); [|reflexivity]. apply mul_ok. cbn [usize in_range]. change (2 ^ 62) with 4611686018427387904 in B. lia. }
  rewrite G. cbn [bind run early]. auto.
Qed.

Lemma search_limit : forall n dr r, loop n (method_step f pf fuel w target) (0, 1, dr) = Ret r -> loop 189 (method_step f pf fuel w target) (0, 1, dr) = Ret r.
Proof.
  intros n dr r E. destruct (Z.le_gt_cases n 189) as [L|L]; [eapply loop_mono; eassumption|].
  pose proof (run_iter_count _ _ True True early (fun _ _ => True) (method_step f pf fuel w target) 189 (0, 1, dr) ltac:(lia) ltac:(split; reflexivity) (fun k s Hk => early_step k s Hk)) as R.
  unfold loop in *. rewrite iter_niter in E. replace (Z.to_nat n) with (Z.to_nat 189 + Z.to_nat (n - 189))%nat in E by lia. rewrite niter_add, <- iter_niter in E.
  destruct (iter 189 (method_step f pf fuel w target) (0, 1, dr)) as [[st|x]| |]; cbn [kbind bind] in E |- *; try discriminate; [|exact E].
  exfalso. cbn [run] in R. assert (HS : spent st). { destruct st as [[i ratio] d]. destruct R as [-> ->]. split; [lia|]. right. split; [lia | reflexivity]. }
  pose proof (run_iter _ _ True True spent (fun _ => False) (method_step f pf fuel w target) (n - 189) st HS spent_step) as R2. rewrite iter_niter in R2.
  destruct (niter (method_step f pf fuel w target) (Z.to_nat (n - 189)) st) as [[st2|y]| |]; cbn [run bind] in *; try discriminate. exact R2.
Qed.

(** *** Every pass ends, given enough draws and fuel *)
Hypothesis (Hodd : Z.odd target = true).
Hypothesis (Hfuel : 2 ^ (w + 1) <= fuel).

Lemma squfof_ends : forall ks ratio, (forall k, In k ks -> In k SQUFOF_MULTIPLIERS) ->
  run True False (fun o => forall d, o = Some d -> proper_divisor d target) (squfof_multi f pf fuel (U w) ks target ratio).
Proof.
  assert (Hw2 : 2 ^ (w + 1) = 2 * 2 ^ w) by (cbn [valid_ity] in Hv; rewrite Z.pow_add_r, Z.pow_1_r by lia; lia).
  induction ks as [|k ks IH]; intros ratio Hks; cbn [squfof_multi]; [cbn [run]; discriminate|].
  assert (Hk : In k SQUFOF_MULTIPLIERS) by (apply Hks; left; reflexivity).
  assert (IH' : run True False (fun o => forall d, o = Some d -> proper_divisor d target) (squfof_multi f pf fuel (U w) ks target ratio)) by (apply IH; intros q Hq; apply Hks; right; exact Hq).
  destruct (checked (U w) (target * k)) as [mt|] eqn:Ec; [|exact IH']. apply checked_inv in Ec. destruct Ec as [Em Hr]. destruct (multipliers_divide k Hk) as [Hk0 _].
  apply run_bind. eapply run_mono; [apply usize_ret | auto | tauto |]. intros r2 _. apply run_bind. eapply run_mono; [apply usize_ret | auto | tauto |]. intros mi Hmi. cbn beta in Hmi |- *.
  apply run_bind. eapply run_mono; [apply squfof_total | tauto | tauto |].
  - exact Hv.
  - lia.
  - nia.
  - rewrite Em; exact Hr.
  - exists k. lia.
  - lia.
  - rewrite Em. apply mult_not_square, Hk.
  - cbn [in_range] in Hr. rewrite <- Em in Hr. lia.
  - intros [[d|] i] [_ H]; cbn [fst] in H; [|exact IH']. cbn [run]. exact H.
Qed.
Lemma method_ends : forall k dr, 0 <= k < 192 -> (2 <= length dr)%nat ->
  run True False (fun r => match r with
      | Done x => proper_divisor (fst x) target /\ (length dr <= length (snd x) + 2)%nat
      | Next (i', ratio', dr') => i' = k + 1 /\ (pf = Debug -> k < 191) /\ (k < 191 -> ratio' = 2 ^ ((k + 1) / 3)) /\
          Z.of_nat (length dr') = Z.of_nat (length dr) - (if k mod 3 =? 0 then 2 else 0) end)
    (method_step f pf fuel w target (k, 2 ^ (k / 3), dr)).
Proof.
  intros k dr Hk Hdr. unfold method_step.
  assert (Hshl : forall x, run True False (fun y => 0 <= y < 2 ^ 64) (shl_ pf usize (2 ^ (k / 3)) (bt_bits x / 6))).
  { intros x. unfold shl_, usize. destruct ((0 <=? bt_bits x / 6) && (bt_bits x / 6 <? 64)); [|destruct pf]; cbn [run]; try exact I; apply Z.mod_pos_bound; lia. }
  apply run_bind. apply (run_mono _ True False _ _ (fun x => (forall d, fst x = Some d -> proper_divisor d target) /\ Z.of_nat (length (snd x)) = Z.of_nat (length dr) - (if k mod 3 =? 0 then 2 else 0))); [| tauto | tauto |].
  - destruct (Z.eqb_spec (k mod 3) 0) as [E0|N0].
    + destruct dr as [|x1 dr]; [cbn in Hdr; lia|]. cbn [draw bind]. destruct dr as [|x2 dr]; [cbn in Hdr; lia|]. cbn [draw bind].
      unfold reduced_new. rewrite Hodd. cbn [bind]. apply run_bind. eapply run_mono; [apply Hshl | auto | tauto |]. intros mi Hmi. cbn beta in Hmi |- *.
      pose proof (Z.mod_pos_bound (x1 mod 2 ^ w) target ltac:(lia)) as B1. pose proof (Z.mod_pos_bound (x2 mod 2 ^ w) target ltac:(lia)) as B2.
      assert (Hin : in_range (U w) target) by (cbn [in_range]; lia).
      rewrite (pollard_rho_mint f pf (U w) target _ Hv Hin ltac:(lia) Hodd _ mi B1).
      destruct (pollard_rho_spec f pf (U w) Hv target ((x1 mod 2 ^ w) mod target) ((x2 mod 2 ^ w) mod target) mi Hin ltac:(lia)) as [o [j [-> [_ H]]]]; [cbn [in_range]; lia | lia |].
      cbn [bind run fst snd length]. split; [destruct o as [d|]; cbn [option_map mint_val]; [exact H | discriminate] | lia].
    + destruct (Z.eqb_spec (k mod 3) 1) as [E1|N1].
      * fold mul480. destruct mul480_spec as [M1 [M2 M3]]. apply run_bind. eapply run_mono; [apply Hshl | auto | tauto |]. intros mi Hmi. cbn beta in Hmi |- *.
        apply run_bind. eapply run_mono; [apply one_line_run | tauto | tauto |]; try assumption; try lia.
        intros [o j] [_ H]. cbn [fst] in *. cbn [run fst snd]. split; [exact H | lia].
      * apply run_bind. eapply run_mono; [apply (squfof_ends SQUFOF_MULTIPLIERS); auto | auto | auto |]. intros o H. cbn [run fst snd]. split; [exact H | lia].
  - intros [o dr'] [A B]. cbn [fst snd] in A, B. destruct o as [d|]; [cbn [run fst snd]; split; [apply A; reflexivity | destruct (k mod 3 =? 0); lia]|].
    rewrite add_ok by (cbn [usize in_range]; lia). cbn [bind].
    destruct (Z.eq_dec k 191) as [->|Nk].
    + change ((191 + 1) mod 3 =? 0) with true. cbv iota. unfold mul_, wrapz. change (in_rangeb usize (2 ^ (191 / 3) * 2)) with false. cbv iota. destruct pf; [exact I|]. cbn [bind run]. split; [reflexivity|]. split; [discriminate|]. split; [lia | exact B].
    + assert (P : 0 < 2 ^ (k / 3) <= 2 ^ 63) by (split; [apply Z.pow_pos_nonneg; [lia | apply Z.div_pos; lia] | apply Z.pow_le_mono_r; [lia|]; apply Z.lt_succ_r, Z.div_lt_upper_bound; lia]).
      assert (G : (if (k + 1) mod 3 =? 0 then mul_ pf usize (2 ^ (k / 3)) 2 else Ret (2 ^ (k / 3))) = Ret (2 ^ ((k + 1) / 3))).
      { rewrite <- ratio_next by lia. destruct (Z.eqb_spec ((k + 1) mod 3) 0) as [E|E]; [|reflexivity]. apply mul_ok. cbn [usize in_range].
        assert (P2 : 2 ^ (k / 3) <= 2 ^ 62) by (apply Z.pow_le_mono_r; [lia|]; pose proof (Z.div_mod (k + 1) 3 ltac:(lia)); pose proof (Z.div_mod k 3 ltac:(lia)); pose proof (Z.mod_pos_bound k 3 ltac:(lia)); lia).
        change (2 ^ 62) with 4611686018427387904 in P2. lia. }
      rewrite G. cbn [bind run]. split; [reflexivity|]. split; [lia|]. split; [reflexivity | exact B].
Qed.
Lemma search_ends : pf = Debug -> forall n dr, 192 <= n -> (130 <= length dr)%nat ->
  run True False (fun x => proper_divisor (fst x) target /\ (length dr <= length (snd x) + 130)%nat) (loop n (method_step f pf fuel w target) (0, 1, dr)).
Proof.
  intros Hpf n dr Hn Hdr. pose (J := fun (k : Z) (st : Z * Z * draws) => let '(i, ratio, d) := st in i = k /\ k <= 191 /\ ratio = 2 ^ (k / 3) /\ Z.of_nat (length d) = Z.of_nat (length dr) - 2 * ((k + 2) / 3)).
  unfold loop. apply run_bind. eapply run_mono; [apply (run_iter_count _ _ True False J (fun _ x => proper_divisor (fst x) target /\ (length dr <= length (snd x) + 130)%nat)); [lia | | ] | tauto | tauto |].
  - cbn [J]. change (2 ^ (0 / 3)) with 1. change ((0 + 2) / 3) with 0. lia.
  - intros k [[i ratio] d] Hk [-> [Hk2 [Er El]]]. subst ratio.
    pose proof (Z.div_mod k 3 ltac:(lia)) as D3. pose proof (Z.mod_pos_bound k 3 ltac:(lia)) as B3. pose proof (Z.div_mod (k + 2) 3 ltac:(lia)) as D2. pose proof (Z.mod_pos_bound (k + 2) 3 ltac:(lia)) as B2.
    pose proof (Z.div_mod (k + 1 + 2) 3 ltac:(lia)) as D4. pose proof (Z.mod_pos_bound (k + 1 + 2) 3 ltac:(lia)) as B4.
    destruct (Z.eqb_spec (k mod 3) 0) as [E3|E3].
    + eapply run_mono; [apply (method_ends k d); [lia | lia] | tauto | tauto |]. intros [[[i' ratio'] d']|x].
      * intros [-> [Hlast [Er' El']]]. specialize (Hlast Hpf). unfold J. split; [reflexivity|]. split; [lia|]. split; [apply Er'; exact Hlast|]. rewrite El', El. destruct (Z.eqb_spec (k mod 3) 0); lia.
      * intros [A B]. split; [exact A | lia].
    + eapply run_mono; [apply (method_ends k d); [lia|] | tauto | tauto |]; cycle 1.
      * intros [[[i' ratio'] d']|x].
        -- intros [-> [Hlast [Er' El']]]. specialize (Hlast Hpf). unfold J. split; [reflexivity|]. split; [lia|]. split; [apply Er'; exact Hlast|]. rewrite El', El. destruct (Z.eqb_spec (k mod 3) 0); lia.
        -- intros [A B]. split; [exact A | lia].
      * lia.
  - intros [[[i ratio] d]|x] H; cbn beta iota in *; [cbn [J] in H; exfalso; lia|]. cbn [run]. destruct H as [k [_ H]]. exact H.
Qed.
End Search.

(** a budget of 0 stays 0 *)
Lemma zero_stays : forall f fuel w target i dr i' r' dr', method_step f Release fuel w target (i, 0, dr) = Ret (Next (i', r', dr')) -> r' = 0.
Proof.
  intros f fuel w target i dr i' r' dr' E. unfold method_step in E. apply bind_ret in E. destruct E as [[o d] [_ E]]. destruct o as [p|]; [discriminate|].
  apply bind_ret in E. destruct E as [j [_ E]]. destruct (j mod 3 =? 0); [change (mul_ Release usize 0 2) with (@Ret Z 0) in E|]; cbn [bind] in E; injection E; intros; subst; reflexivity.
Qed.

(** ** factorize64 in debug builds *)
Lemma cofactor_lcm : forall f w n, cofactor f w n -> Z.gcd n MULT_LCM = 1.
Proof.
  intros f w n [Hn Hc]. apply small_coprime; [lia|]. intros p Pp D1 D'. apply (Hc p Pp); [|exact D1]. unfold MULT_LCM in D'. pose proof (next_ge f).
  assert (K : forall a, 0 < a <= 19 -> (p | a) -> p < SMALL_PRIMES_NEXT f) by (intros a Ha C; apply Z.divide_pos_le in C; lia).
  do 5 (apply prime_div_mul in D'; [|exact Pp]; destruct D' as [D'|D']; [eapply K; [|exact D']; lia|]).
  apply prime_div_mul in D'; [|exact Pp]. destruct D' as [D'|D']; eapply K; try exact D'; lia.
Qed.

Section Adv.
Variables (f : feature) (fuel P : Z).
Hypothesis (HP : 1 <= P < 2 ^ 128).
Hypothesis (Hfuel : 2 ^ 65 <= fuel).

Lemma adv64_step_ends : forall n e todo factored dr, adv_inv f P ((n, e) :: todo, factored, dr) -> (130 <= length dr)%nat ->
  run True False (fun r => match r with Next (todo', _, dr') => weights todo' + 1 <= weights ((n, e) :: todo) /\ (length dr <= length dr' + 130)%nat | Done _ => True end)
    (adv64_step f Debug fuel ((n, e) :: todo, factored, dr)).
Proof.
  intros n e todo factored dr [Ht [Hf E]] Hdr. inversion Ht as [|x l [Hc He] Ht']; subst x l. cbn [fst snd] in Hc, He. cbn [prod_powers] in E.
  pose proof (cofactor_odd f 64 n Hc) as Ho. pose proof (cofactor_ge f 64 n Hc) as Hge. pose proof (next_ge f) as Hnx. pose proof Hc as [Hn _].
  pose proof (entry64_pos f todo Ht') as T1.
  assert (F1 : 1 <= prod_powers factored) by (apply (entry64_pos f); eapply Forall_impl; [|exact Hf]; cbn beta; tauto).
  assert (He' : e < 128) by (apply (exponent_small P HP n e (prod_powers todo * prod_powers factored)); [lia | lia | nia | lia]).
  cbn [weights]. pose proof (weight_pos n e ltac:(lia)) as W1.
  assert (Hm := miller64_law f Debug n ltac:(lia) Ho). cbn [adv64_step]. rewrite Hm. cbn [bind].
  destruct (forallb (z_sprp n) (miller_bases f n)) eqn:Em; [cbn [run]; lia|].
  destruct (sqrt_exact_lawful f Debug u64 n) as [o [Eo Hr]]; [cbn [in_range u64]; lia | lia|]. rewrite Eo. cbn [bind].
  destruct o as [d|]; cbn [exact_root] in Hr.
  { destruct Hr as [Hd0 Hd]. rewrite Z.pow_2_r in Hd. assert (Hd1 : 1 < d) by nia. rewrite mul_ok by (cbn [usize in_range]; lia). cbn [bind run weights].
    pose proof (weight_split d d (e * 2) (e * 2) e Hd1 Hd1) as W. rewrite Hd in W. pose proof (weight_pos d (e * 2) Hd1). lia. }
  destruct (nth_root_exact_nonneg n 3) as [o [Eo3 Hr3]]; [lia | lia|]. cbn [cbrt_exact u64]. unfold cbrt_exact_prim. rewrite Eo3. cbn [bind]. destruct o as [d|].
  { destruct Hr3 as [Hd0 Hd]. assert (Ed : d ^ 3 = d * (d * d)) by ring. assert (Hd1 : 1 < d) by nia. rewrite mul_ok by (cbn [usize in_range]; lia). cbn [bind run weights].
    pose proof (weight_split d (d * d) (e * 3) 1 e Hd1 ltac:(nia)) as W. rewrite <- Ed, Hd in W. pose proof (weight_pos (d * d) 1 ltac:(nia)). lia. }
  apply run_bind. unfold find_divisor. eapply run_mono; [apply (search_ends f Debug fuel 64 n) | tauto | tauto |].
  - cbn; lia.
  - lia.
  - apply (cofactor_lcm f 64), Hc.
  - intros [s Es]. apply (Hr (Z.abs s) ltac:(lia)). rewrite Z.pow_2_r, Z.abs_square. exact Es.
  - exact Ho.
  - exact Hfuel.
  - reflexivity.
  - change (2 ^ 65) with (2 * 2 ^ 64) in Hfuel. lia.
  - exact Hdr.
  - intros [d dr'] [Hd Hl]. cbn [fst snd] in Hd, Hl. pose proof Hd as [D1 [D2 [c D3]]]. assert (Hc1 : 1 < c) by nia.
    rewrite div_ok by lia. cbn [bind run weights]. replace (n / d) with c by (rewrite D3, Z.div_mul; lia).
    pose proof (weight_split c d e e e Hc1 D1) as W. rewrite <- D3 in W. lia.
Qed.

Lemma adv64_ends : forall k : nat, forall todo factored dr fl, adv_inv f P (todo, factored, dr) -> weights todo <= Z.of_nat k -> Z.of_nat k < fl -> (130 * k <= length dr)%nat ->
  loop fl (adv64_step f Debug fuel) (todo, factored, dr) <> NoFuel.
Proof.
  induction k as [|k IH]; intros todo factored dr fl HI Hw Hfl Hdr; unfold loop; replace fl with (fl - 1 + 1) by lia; rewrite iter_succ by lia.
  - destruct todo as [|[n e] todo]; [discriminate|].
    exfalso. destruct HI as [Ht _]. pose proof (entries64 f _ Ht) as H. inversion H; subst. cbn [fst] in *. cbn [weights] in Hw.
    pose proof (weight_pos n e ltac:(assumption)). pose proof (weights_pos todo ltac:(assumption)). lia.
  - destruct todo as [|[n e] todo]; [discriminate|].
    pose proof (adv64_step_ends n e todo factored dr HI ltac:(lia)) as R. pose proof (adv64_step_spec f Debug fuel P HP ((n, e) :: todo, factored, dr) HI) as R2.
    destruct (adv64_step f Debug fuel ((n, e) :: todo, factored, dr)) as [[[[todo' factored'] dr']|x]| |]; cbn [run] in R, R2; cbn [kbind bind]; try discriminate; [|contradiction].
    apply (IH todo' factored' dr' (fl - 1) R2); lia.
Qed.
End Adv.

Lemma factorize64_ends : forall f fuel n dr, 2 ^ 65 <= fuel -> 1 <= n < 2 ^ 64 -> 16640 <= Z.of_nat (length dr) -> factorize64 f Debug fuel n dr <> NoFuel.
Proof.
  intros f fuel n dr Hf Hn Hdr. assert (Hf' : 129 < fuel) by (change (2 ^ 65) with (2 * 2 ^ 64) in Hf; lia).
  destruct (factorize64_cases f Debug fuel Hf' n dr Hn) as [[_ [_ ->]]|[[_ [m [_ ->]]]|[_ [res [rsd [W [P [K [C ->]]]]]]]]]; [discriminate | discriminate |].
  pose proof C as [Cr _]. unfold factorize64_advanced.
  pose proof (adv64_ends f fuel rsd ltac:(lia) Hf 128 [(rsd, 1)] [] dr fuel) as E.
  assert (N : loop fuel (adv64_step f Debug fuel) ([(rsd, 1)], [], dr) <> NoFuel).
  { apply E; [| | lia | lia].
    - split; [constructor; [split; [exact C | cbn; lia] | constructor]|]. split; [constructor|]. cbn [prod_powers]. rewrite Z.pow_1_r. lia.
    - cbn [weights]. pose proof (weight_bound 64 rsd 1 ltac:(lia) ltac:(lia)). lia. }
  match goal with |- bind ?x _ <> _ => destruct x as [[fs dr']| |] eqn:Q end; cbn [bind]; try discriminate. exfalso. exact (N Q).
Qed.
