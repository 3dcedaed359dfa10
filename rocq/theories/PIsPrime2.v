(** * Proofs about PrimeBufferExt::is_prime. *)
From Coq Require Import ZArith Znumtheory List Lia Bool Sorted.
From Verif Require Import Base Tables Spec Ext NT PBase PTables MInteger Ops POps MPrimality MTraits MSieve MIsPrime PSprp PropSprp PIsPrime PLucas PLucas2 PLucas3 PropLucas.
Import ListNotations.
Local Open Scope Z_scope.

(** ** Random witnesses *)
Lemma fresh_witness_spec : forall dr ws w dr', fresh_witness dr ws = Ret (w, dr') ->
  0 <= w < 2 ^ 64 /\ ~ In w ws /\ exists k x, skipn k dr = x :: dr' /\ w = x mod 2 ^ 64.
Proof.
  induction dr as [|x dr IH]; intros ws w dr' H; [discriminate|]. unfold fresh_witness in H; fold fresh_witness in H. cbv zeta in H.
  destruct (existsb (Z.eqb (x mod 2 ^ 64)) ws) eqn:E.
  - destruct (IH ws w dr' H) as [A [B [k [y [C D]]]]]. split; [exact A|]. split; [exact B|]. exists (S k), y. split; [exact C | exact D].
  - injection H as <- <-. split; [apply Z.mod_pos_bound; lia|]. split.
    + intros C. assert (F : existsb (Z.eqb (x mod 2 ^ 64)) ws = true) by (apply existsb_exists; eexists; split; [exact C | apply Z.eqb_refl]). congruence.
    + exists O, x. split; reflexivity.
Qed.
Lemma fresh_not_panic : forall dr ws, fresh_witness dr ws <> Panic.
Proof. induction dr as [|x dr IH]; intros ws; [discriminate|]. unfold fresh_witness; fold fresh_witness. cbv zeta. destruct (existsb _ ws); [apply IH | discriminate]. Qed.
Lemma random_not_panic : forall k dr ws, random_witnesses k dr ws <> Panic.
Proof.
  induction k as [|k IH]; intros dr ws; [discriminate|]. cbn [random_witnesses]. pose proof (fresh_not_panic dr ws).
  destruct (fresh_witness dr ws) as [[w dr']| |]; cbn [bind]; [apply IH | congruence | discriminate].
Qed.
Lemma random_witnesses_spec : forall k dr ws0 ws dr', random_witnesses k dr ws0 = Ret (ws, dr') ->
  exists rnd, ws = ws0 ++ rnd /\ length rnd = k /\ NoDup rnd /\ (forall w, In w rnd -> ~ In w ws0 /\ 0 <= w < 2 ^ 64 /\ exists x, In x dr /\ w = x mod 2 ^ 64) /\
    exists j, dr' = skipn j dr.
Proof.
  induction k as [|k IH]; intros dr ws0 ws dr' H; cbn [random_witnesses] in H.
  - injection H as <- <-. exists []. rewrite app_nil_r. split; [reflexivity|]. split; [reflexivity|]. split; [constructor|]. split; [intros w []|]. exists O. reflexivity.
  - apply bind_ret in H. destruct H as [[w dr1] [E H]]. apply fresh_witness_spec in E. destruct E as [A [B [j [x [C D]]]]].
    destruct (IH _ _ _ _ H) as [rnd [Ew [El [Hn [Hr [j' Ej]]]]]]. exists (w :: rnd).
    assert (Ed : dr1 = skipn (S j) dr).
    { clear -C. revert dr C. induction j as [|j IHj]; intros dr C.
      - cbn [skipn] in C. subst. reflexivity.
      - destruct dr as [|a dr]; [discriminate|]. cbn [skipn] in C. apply IHj in C. exact C. }
    split; [rewrite Ew, <- app_assoc; reflexivity|]. split; [cbn [length]; lia|].
    split; [constructor; [|exact Hn]; intros Hin; apply Hr in Hin; destruct Hin as [Hin _]; apply Hin, in_or_app; right; left; reflexivity|].
    split.
    + assert (Hsub : forall n y, In y (skipn n dr) -> In y dr).
      { intros n y Hy. rewrite <- (firstn_skipn n dr). apply in_or_app. right. exact Hy. }
      intros y [<-|Hy].
      * split; [exact B|]. split; [exact A|]. exists x. split; [|exact D]. apply (Hsub j). rewrite C. left. reflexivity.
      * apply Hr in Hy. destruct Hy as [Y1 [Y2 [z [Y3 Y4]]]]. split; [intros Hc; apply Y1, in_or_app; left; exact Hc|]. split; [exact Y2|].
        exists z. split; [|exact Y4]. rewrite Ed in Y3. apply (Hsub (S j)). exact Y3.
    + exists (j' + S j)%nat. rewrite Ej, Ed. assert (G : forall a b (l : list Z), skipn a (skipn b l) = skipn (a + b) l).
      { intros a b. induction b as [|b IHb]; intros l; [rewrite Nat.add_0_r; reflexivity|].
        rewrite Nat.add_succ_r. destruct l as [|y l]; [rewrite skipn_nil; reflexivity | cbn [skipn]; apply IHb]. }
      apply G.
Qed.

(** ** is_prime as a function of the tests *)
Definition the_config (config : option prime_config) : prime_config := match config with Some c => c | None => pc_default end.
Definition fixed_witnesses (c : prime_config) (buf : list Z) : list Z :=
  if 0 <? sprp_trials c then firstn (Z.to_nat (sprp_trials c)) buf else [].
Definition draw_witnesses (c : prime_config) (dr : draws) (ws0 : list Z) : res (list Z * draws) :=
  if 0 <? sprp_random_trials c then random_witnesses (Z.to_nat (sprp_random_trials c)) dr ws0 else Ret (ws0, dr).
Definition confidence {A} (PR : probs A) (c : prime_config) : A :=
  let pr0 := if 0 <? sprp_trials c then pr_mul PR (pr_one PR) (pr_trials PR (sprp_trials c)) else pr_one PR in
  let pr1 := if 0 <? sprp_random_trials c then pr_mul PR pr0 (pr_trials PR (sprp_random_trials c)) else pr0 in
  let pr2 := if slprp_test c then pr_mul PR pr1 (pr_lucas PR) else pr1 in
  if eslprp_test c then pr_mul PR pr2 (pr_lucas PR) else pr2.

Lemma fixed_in : forall c buf w, In w (fixed_witnesses c buf) -> In w buf.
Proof.
  intros c buf w. unfold fixed_witnesses. destruct (0 <? sprp_trials c); [|intros []]. intros H.
  rewrite <- (firstn_skipn (Z.to_nat (sprp_trials c)) buf). apply in_or_app. left. exact H.
Qed.

Section Generic.
Context {T A : Type} (f : feature) (pf : profile) (OP : ops T) (PR : probs A) (t : ity) (okm : Z -> Prop) (V : T -> Z -> Prop) (R : Z -> T -> Z -> Prop).
Context (L : lawful OP t okm V R) (Hv : valid_ity t).

Lemma is_prime_even : forall fuel buf n N config dr, V n N -> Z.even N = true ->
  is_prime f pf OP PR fuel buf n config dr = Ret (if N =? 2 then Yes else No, dr).
Proof.
  intros fuel buf n N config dr Hn Ev. unfold is_prime. rewrite (l_even _ _ _ _ _ L _ _ Hn), Ev.
  destruct (o_const_ok OP t okm V R L 2 (in_range_small t Hv 2 ltac:(lia))) as [c [-> Hc]]. cbn [bind].
  rewrite (l_eqb _ _ _ _ _ L _ _ _ _ Hn Hc). reflexivity.
Qed.
Lemma is_prime_small : forall fuel buf n N config dr, V n N -> N < 2 ^ 64 ->
  is_prime f pf OP PR fuel buf n config dr = Ret (if z_is_prime64 f N then Yes else No, dr).
Proof.
  intros fuel buf n N config dr Hn Hs. destruct (Z.even N) eqn:Ev.
  - rewrite (is_prime_even _ _ _ _ _ _ Hn Ev). unfold z_is_prime64. rewrite Ev.
    destruct (Z.ltb_spec N 2) as [H|H]; [|reflexivity]. destruct (Z.eqb_spec N 2); [lia | reflexivity].
  - unfold is_prime. rewrite (l_even _ _ _ _ _ L _ _ Hn), Ev, (l_toz _ _ _ _ _ L _ _ Hn).
    replace (N <? 2 ^ 64) with true by (symmetry; apply Z.ltb_lt; lia). rewrite is_prime64_law by exact Hs. reflexivity.
Qed.
Lemma is_prime_large : forall fuel buf n N config dr, V n N -> okm N -> Z.odd N = true -> 2 ^ 64 <= N ->
  (forall w, In w buf -> 0 <= w < 2 ^ 64) ->
  let c := the_config config in
  is_prime f pf OP PR fuel buf n config dr =
    ('(ws, dr') <- draw_witnesses c dr (fixed_witnesses c buf) ;;
     if negb (forallb (z_sprp N) ws) then Ret (No, dr')
     else
       sl <- (if slprp_test c then is_slprp pf OP fuel n None None else Ret true) ;;
       if negb sl then Ret (No, dr')
       else el <- (if eslprp_test c then is_eslprp pf OP fuel n None else Ret true) ;;
            if negb el then Ret (No, dr') else Ret (Probable (confidence PR c), dr')).
Proof.
  intros fuel buf n N config dr Hn Hok Ho Hl Hbuf c. unfold is_prime.
  rewrite (l_even _ _ _ _ _ L _ _ Hn), <- Z.negb_odd, Ho, (l_toz _ _ _ _ _ L _ _ Hn). cbn [negb].
  replace (N <? 2 ^ 64) with false by (symmetry; apply Z.ltb_ge; lia). fold (the_config config). fold c.
  fold (fixed_witnesses c buf). fold (draw_witnesses c dr (fixed_witnesses c buf)).
  assert (Hws : forall ws dr', draw_witnesses c dr (fixed_witnesses c buf) = Ret (ws, dr') -> forall w, In w ws -> 0 <= w < 2 ^ 64).
  { intros ws dr' E w Hw. unfold draw_witnesses in E. destruct (0 <? sprp_random_trials c).
    - apply random_witnesses_spec in E. destruct E as [rnd [-> [_ [_ [Hr _]]]]]. apply in_app_or in Hw. destruct Hw as [Hw|Hw].
      + apply Hbuf, (fixed_in c), Hw.
      + apply Hr in Hw. tauto.
    - injection E as <- _. apply Hbuf, (fixed_in c), Hw. }
  destruct (draw_witnesses c dr (fixed_witnesses c buf)) as [[ws dr']| |] eqn:E; cbn [bind]; try reflexivity.
  specialize (Hws ws dr' eq_refl).
  rewrite (allM_law _ _ (z_sprp N)).
  2:{ intros w Hw. destruct (o_const_ok OP t okm V R L w) as [x [-> Hx]].
      - eapply in_range_le; [|apply (l_range _ _ _ _ _ L _ _ Hn)]. specialize (Hws w Hw). lia.
      - cbn [bind]. apply (is_sprp_law OP t okm V R L (in_range_small t Hv 1 ltac:(lia))); auto. lia. }
  cbn [bind]. destruct (forallb (z_sprp N) ws); cbn [negb]; [|reflexivity].
  destruct (if slprp_test c then is_slprp pf OP fuel n None None else Ret true) as [[|]| |]; reflexivity.
Qed.
End Generic.

(** A new buffer holds the table primes. *)
Lemma new_buf_range : forall f w, In w (buf_iter (buf_new f)) -> 0 < w < 2 ^ 64.
Proof.
  intros f w H. cbn [buf_iter buf_new b_list] in H. apply (proj2 (small_primes_list f)) in H. destruct H as [Hp H].
  pose proof (prime_ge2 w Hp). rewrite small_next in H. destruct f; lia.
Qed.
