(** * Reasoning about the machine model: outcomes, loops, ranges, searches, maps. *)
From Coq Require Import ZArith Znumtheory List Lia Bool Sorted Permutation.
From Verif Require Import Base Spec Ext NT.
Import ListNotations.
Local Open Scope Z_scope.

(** ** Outcomes *)

(** [run pan nf Q m]: if [m] returns, the value satisfies [Q]; a panic is allowed iff [pan];
    running out of fuel is allowed iff [nf]. *)
Definition run {A} (pan nf : Prop) (Q : A -> Prop) (m : res A) : Prop :=
  match m with Ret a => Q a | Panic => pan | NoFuel => nf end.

Lemma run_bind : forall A B (pan nf : Prop) Q (m : res A) (g : A -> res B),
  run pan nf (fun a => run pan nf Q (g a)) m -> run pan nf Q (bind m g).
Proof. intros A B pan nf Q [a| |] g H; exact H. Qed.

Lemma run_mono : forall A (pan nf pan' nf' : Prop) (Q Q' : A -> Prop) m,
  run pan nf Q m -> (pan -> pan') -> (nf -> nf') -> (forall a, Q a -> Q' a) -> run pan' nf' Q' m.
Proof. intros A pan nf pan' nf' Q Q' [a| |]; simpl; auto. Qed.

Lemma run_post : forall A (Q : A -> Prop) m, run True True Q m <-> forall a, m = Ret a -> Q a.
Proof.
  intros A Q m. split.
  - intros H a ->. exact H.
  - intros H. destruct m; simpl; auto.
Qed.
Lemma run_ret_inv : forall A pan nf (Q : A -> Prop) m a, run pan nf Q m -> m = Ret a -> Q a.
Proof. intros A pan nf Q m a H ->. exact H. Qed.
Lemma run_eq : forall A (pan nf : Prop) (Q : A -> Prop) m,
  (forall a, m = Ret a -> Q a) -> (m = Panic -> pan) -> (m = NoFuel -> nf) -> run pan nf Q m.
Proof. intros A pan nf Q [a| |]; simpl; auto. Qed.
Lemma run_total : forall A (Q : A -> Prop) m, run False False Q m <-> exists a, m = Ret a /\ Q a.
Proof.
  intros A Q [a| |]; simpl; split; intros H; try contradiction; eauto.
  - destruct H as [a' [E HQ]]. inversion E. subst. exact HQ.
  - destruct H as [a' [E _]]. discriminate.
  - destruct H as [a' [E _]]. discriminate.
Qed.
Lemma run_conj : forall A (pan nf pan' nf' : Prop) (Q Q' : A -> Prop) m,
  run pan nf Q m -> run pan' nf' Q' m -> run (pan /\ pan') (nf /\ nf') (fun a => Q a /\ Q' a) m.
Proof. intros A pan nf pan' nf' Q Q' [a| |]; simpl; auto. Qed.

Lemma bind_ret : forall A B (m : res A) (g : A -> res B) b,
  bind m g = Ret b -> exists a, m = Ret a /\ g a = Ret b.
Proof. intros A B [a| |] g b H; try discriminate. exists a. auto. Qed.
Lemma unwrap_ret : forall A (o : option A) a, unwrap o = Ret a -> o = Some a.
Proof. intros A [x|] a H; inversion H; reflexivity. Qed.

(** Split hypotheses [bind m g = Ret b]. *)
Ltac binds H :=
  repeat match type of H with
  | bind ?m _ = Ret _ =>
      let a := fresh "v" in let E := fresh "E" in
      apply bind_ret in H; destruct H as [a [E H]]
  end.

(** ** Ranges of machine integers *)

(** Unfold a range goal without computing. *)
Ltac rngs := unfold in_range, u64, usize, u128.
Tactic Notation "rng" := rngs; lia.
Lemma in_rangeb_spec : forall t x, in_rangeb t x = true <-> in_range t x.
Proof.
  intros [w|] x; simpl.
  - rewrite andb_true_iff, Z.leb_le, Z.ltb_lt. tauto.
  - apply Z.leb_le.
Qed.
Lemma wrapz_ok : forall pf t x, in_range t x -> wrapz pf t x = Ret x.
Proof. intros pf t x H. unfold wrapz. apply in_rangeb_spec in H. rewrite H. reflexivity. Qed.
Lemma wrapz_debug : forall t x, ~ in_range t x -> wrapz Debug t x = Panic.
Proof.
  intros t x H. unfold wrapz. destruct (in_rangeb t x) eqn:E.
  - apply in_rangeb_spec in E. contradiction.
  - destruct t; reflexivity.
Qed.
Lemma add_ok : forall pf t a b, in_range t (a + b) -> add_ pf t a b = Ret (a + b).
Proof. intros. apply wrapz_ok. assumption. Qed.
Lemma sub_ok : forall pf t a b, in_range t (a - b) -> sub_ pf t a b = Ret (a - b).
Proof. intros. apply wrapz_ok. assumption. Qed.
Lemma mul_ok : forall pf t a b, in_range t (a * b) -> mul_ pf t a b = Ret (a * b).
Proof. intros. apply wrapz_ok. assumption. Qed.
Lemma div_ok : forall a b, b <> 0 -> div_ a b = Ret (a / b).
Proof. intros a b H. unfold div_. apply Z.eqb_neq in H. rewrite H. reflexivity. Qed.
Lemma rem_ok : forall a b, b <> 0 -> rem_ a b = Ret (a mod b).
Proof. intros a b H. unfold rem_. apply Z.eqb_neq in H. rewrite H. reflexivity. Qed.
Lemma from_prim_ok : forall t x, in_range t x -> from_prim t x = Some x.
Proof. intros t x H. unfold from_prim. apply in_rangeb_spec in H. rewrite H. reflexivity. Qed.
Lemma from_prim_inv : forall t x y, from_prim t x = Some y -> y = x /\ in_range t x.
Proof.
  intros t x y H. unfold from_prim in H. destruct (in_rangeb t x) eqn:E; [|discriminate]. injection H as <-.
  split; [reflexivity | apply in_rangeb_spec; exact E].
Qed.
Lemma checked_inv : forall t x y, checked t x = Some y -> y = x /\ in_range t x.
Proof. exact from_prim_inv. Qed.
Lemma checked_none : forall t x, checked t x = None -> ~ in_range t x.
Proof.
  intros t x H C. apply in_rangeb_spec in C. unfold checked in H. rewrite C in H. discriminate.
Qed.
Lemma in_range_nonneg : forall t x, in_range t x -> 0 <= x.
Proof. intros [w|] x H; simpl in H; lia. Qed.
Lemma in_range_le : forall t x y, 0 <= x <= y -> in_range t y -> in_range t x.
Proof. intros [w|] x y H Hy; simpl in *; lia. Qed.
Lemma shr_ok : forall pf t a k, in_range t a -> 0 <= k ->
  (match t with U w => k < w | Big => True end) -> shr_ pf t a k = Ret (Z.shiftr a k).
Proof.
  intros pf [w|] a k Ha Hk Hw; simpl; [|reflexivity].
  replace (0 <=? k) with true by (symmetry; apply Z.leb_le; lia).
  replace (k <? w) with true by (symmetry; apply Z.ltb_lt; lia). reflexivity.
Qed.

(** Results of machine arithmetic are always in range (both profiles). *)
Lemma wrapz_range : forall pf t x y, (match t with U w => 0 <= w | Big => True end) ->
  wrapz pf t x = Ret y -> in_range t y.
Proof.
  intros pf t x y Hw H. unfold wrapz in H. destruct (in_rangeb t x) eqn:E.
  - inversion H; subst. apply in_rangeb_spec. assumption.
  - destruct t as [w|]; [destruct pf; [discriminate|] | discriminate].
    inversion H. simpl. apply Z.mod_pos_bound. apply Z.pow_pos_nonneg; lia.
Qed.

(** ** Loops *)

Definition kbind {S R} (m : res (step S R)) (k : S -> res (step S R)) : res (step S R) :=
  bind m (fun r => match r with Done x => Ret (Done x) | Next s => k s end).

Fixpoint niter {S R} (f : S -> res (step S R)) (n : nat) (s : S) : res (step S R) :=
  match n with
  | O => Ret (Next s)
  | Datatypes.S k => kbind (f s) (niter f k)
  end.

Lemma kbind_assoc : forall S R (m : res (step S R)) k1 k2,
  kbind (kbind m k1) k2 = kbind m (fun s => kbind (k1 s) k2).
Proof. intros S R [[s|r]| |] k1 k2; reflexivity. Qed.
Lemma kbind_next : forall S R (m : res (step S R)), kbind m (fun s => Ret (Next s)) = m.
Proof. intros S R [[s|r]| |]; reflexivity. Qed.
Lemma kbind_ext : forall S R (m : res (step S R)) k k', (forall s, k s = k' s) -> kbind m k = kbind m k'.
Proof. intros S R [[s|r]| |] k k' H; simpl; auto. Qed.

Lemma niter_add : forall S R (f : S -> res (step S R)) a b s,
  niter f (a + b) s = kbind (niter f a s) (niter f b).
Proof.
  intros S R f a b. induction a as [|a IH]; intros s; simpl; [reflexivity|].
  rewrite kbind_assoc. apply kbind_ext. exact IH.
Qed.

Lemma piter_niter : forall S R (f : S -> res (step S R)) p s, piter f p s = niter f (Pos.to_nat p) s.
Proof.
  intros S R f p. induction p as [p IH|p IH|]; intros s.
  - rewrite Pos2Nat.inj_xI.
    replace (Datatypes.S (2 * Pos.to_nat p)) with (1 + (Pos.to_nat p + Pos.to_nat p))%nat by lia.
    rewrite niter_add. cbn [niter piter]. rewrite kbind_next. apply kbind_ext. intros s'.
    rewrite niter_add. rewrite <- IH. unfold kbind.
    destruct (piter f p s') as [[s2|r]| |]; simpl; auto.
  - rewrite Pos2Nat.inj_xO. replace (2 * Pos.to_nat p)%nat with (Pos.to_nat p + Pos.to_nat p)%nat by lia.
    rewrite niter_add. cbn [piter]. rewrite <- IH. unfold kbind.
    destruct (piter f p s) as [[s2|r]| |]; simpl; auto.
  - change (Pos.to_nat 1) with 1%nat. cbn [niter piter]. rewrite kbind_next. reflexivity.
Qed.
Lemma iter_niter : forall S R (f : S -> res (step S R)) n s, iter n f s = niter f (Z.to_nat n) s.
Proof.
  intros S R f [|p|p] s; try reflexivity. simpl. apply piter_niter.
Qed.
Lemma iter_le0 : forall S R (f : S -> res (step S R)) n s, n <= 0 -> iter n f s = Ret (Next s).
Proof. intros S R f [|p|p] s H; try reflexivity; lia. Qed.
Lemma iter_succ : forall S R (f : S -> res (step S R)) n s, 0 <= n ->
  iter (n + 1) f s = kbind (f s) (iter n f).
Proof.
  intros S R f n s H. rewrite iter_niter.
  replace (Z.to_nat (n + 1)) with (Datatypes.S (Z.to_nat n)) by lia. cbn [niter].
  apply kbind_ext. intros s'. symmetry. apply iter_niter.
Qed.

(** Invariant rule: [I] is kept by every pass, [Q] holds when the loop is left. *)
Lemma run_iter : forall S R (pan nf : Prop) (I : S -> Prop) (Q : R -> Prop) (f : S -> res (step S R)) n s,
  I s ->
  (forall s, I s -> run pan nf (fun r => match r with Next s' => I s' | Done x => Q x end) (f s)) ->
  run pan nf (fun r => match r with Next s' => I s' | Done x => Q x end) (iter n f s).
Proof.
  intros S R pan nf I Q f n s HI Hf. rewrite iter_niter. generalize (Z.to_nat n). intros k.
  revert s HI. induction k as [|k IH]; intros s HI; simpl; [exact HI|].
  apply run_bind. eapply run_mono; [apply Hf, HI | auto | auto |].
  intros [s'|x] H; simpl; auto.
Qed.
(** The same with the pass number. *)
Lemma run_iter_count : forall S R (pan nf : Prop) (I : Z -> S -> Prop) (Q : Z -> R -> Prop)
    (f : S -> res (step S R)) n s,
  0 <= n -> I 0 s ->
  (forall k s, 0 <= k < n -> I k s ->
     run pan nf (fun r => match r with Next s' => I (k + 1) s' | Done x => Q k x end) (f s)) ->
  run pan nf (fun r => match r with Next s' => I n s' | Done x => exists k, 0 <= k < n /\ Q k x end)
      (iter n f s).
Proof.
  intros S R pan nf I Q f n s Hn HI Hf. rewrite iter_niter.
  assert (G : forall m k s, 0 <= k -> k + Z.of_nat m = n -> I k s ->
     run pan nf (fun r => match r with Next s' => I n s' | Done x => exists k, 0 <= k < n /\ Q k x end)
      (niter f m s)).
  { induction m as [|m IH]; intros k s' Hk Hm HIk; simpl.
    - replace n with k by lia. exact HIk.
    - apply run_bind. eapply run_mono; [apply (Hf k); [lia | exact HIk] | auto | auto |].
      intros [s''|x] H; simpl.
      + apply (IH (k + 1)); [lia | lia | exact H].
      + exists k. split; [lia | exact H]. }
  apply (G (Z.to_nat n) 0); [lia | lia | exact HI].
Qed.
Lemma run_loop : forall S R (pan nf : Prop) (I : S -> Prop) (Q : R -> Prop) (f : S -> res (step S R)) n s,
  I s -> nf ->
  (forall s, I s -> run pan nf (fun r => match r with Next s' => I s' | Done x => Q x end) (f s)) ->
  run pan nf Q (loop n f s).
Proof.
  intros S R pan nf I Q f n s HI Hnf Hf. unfold loop. apply run_bind.
  eapply run_mono; [apply (run_iter _ _ pan nf I Q); assumption | auto | auto |].
  intros [s'|x] H; simpl; auto.
Qed.
(** Termination: a measure that decreases with every pass. *)
Lemma run_loop_measure : forall S R (pan nf : Prop) (I : S -> Prop) (Q : R -> Prop) (mu : S -> Z)
    (f : S -> res (step S R)) n s,
  I s -> 0 <= mu s < n ->
  (forall s, I s -> run pan nf (fun r => match r with Next s' => I s' /\ 0 <= mu s' < mu s
                                                | Done x => Q x end) (f s)) ->
  run pan nf Q (loop n f s).
Proof.
  intros S R pan nf I Q mu f n s HI Hmu Hf. unfold loop. apply run_bind. rewrite iter_niter.
  assert (G : forall m s, I s -> 0 <= mu s < Z.of_nat m ->
     run pan nf (fun r => run pan nf Q (match r with Done x => Ret x | Next _ => NoFuel end)) (niter f m s)).
  { induction m as [|m IH]; intros s' HI' Hm; [lia|]. simpl. apply run_bind.
    eapply run_mono; [apply Hf, HI' | auto | auto |].
    intros [s''|x] H; simpl; [|exact H]. apply IH; [tauto | lia]. }
  apply G; [assumption | lia].
Qed.

(** More fuel does not change the result. *)
Lemma niter_done_mono : forall S R (f : S -> res (step S R)) a b s x,
  niter f a s = Ret (Done x) -> niter f (a + b) s = Ret (Done x).
Proof. intros S R f a b s x H. rewrite niter_add, H. reflexivity. Qed.
Lemma loop_mono : forall S R (f : S -> res (step S R)) n m s x,
  n <= m -> loop n f s = Ret x -> loop m f s = Ret x.
Proof.
  intros S R f n m s x Hnm H. unfold loop in *. rewrite iter_niter in *.
  apply bind_ret in H. destruct H as [r [E H]]. destruct r as [s'|y]; [discriminate|].
  inversion H; subst. replace (Z.to_nat m) with (Z.to_nat n + (Z.to_nat m - Z.to_nat n))%nat by lia.
  rewrite (niter_done_mono _ _ _ _ _ _ _ E). reflexivity.
Qed.

(** ** foldM *)
Lemma run_foldM : forall A B (pan nf : Prop) (I : list B -> A -> Prop) (f : A -> B -> res A) l a,
  I [] a ->
  (forall done b a, In b l -> I done a -> run pan nf (I (done ++ [b])) (f a b)) ->
  run pan nf (I l) (foldM f l a).
Proof.
  intros A B pan nf I f l a H0 Hs.
  assert (G : forall l' done a, incl l' l -> I done a -> run pan nf (I (done ++ l')) (foldM f l' a)).
  { induction l' as [|b l' IH]; intros done a' Hin HI; simpl.
    - rewrite app_nil_r. exact HI.
    - apply run_bind. eapply run_mono; [apply Hs; [apply Hin; left; reflexivity | exact HI] | auto | auto |].
      intros a'' HI'. replace (done ++ b :: l') with ((done ++ [b]) ++ l') by (rewrite <- app_assoc; reflexivity).
      apply IH; [|exact HI']. intros y Hy. apply Hin. right. exact Hy. }
  apply (G l [] a); [intros y Hy; exact Hy | exact H0].
Qed.

(** ** Ranges *)
Lemma range_from_in : forall n start st x, In x (range_from n start st) <->
  exists k, 0 <= k < Z.of_nat n /\ x = start + k * st.
Proof.
  induction n as [|n IH]; intros start st x; cbn [range_from In].
  - split; [tauto | intros [k [H _]]; lia].
  - rewrite IH. split.
    + intros [H|[k [H E]]].
      * exists 0. split; [lia | subst; ring].
      * exists (k + 1). split; [lia | subst; ring].
    + intros [k [H E]]. destruct (Z.eq_dec k 0) as [->|Hk].
      * left. subst; ring.
      * right. exists (k - 1). split; [lia | subst; ring].
Qed.
Lemma range_step_in : forall start stop st x, 0 < st ->
  (In x (range_step start stop st) <-> exists k, 0 <= k /\ x = start + k * st /\ x < stop).
Proof.
  intros start stop st x Hst. unfold range_step. rewrite range_from_in.
  split; intros [k H]; exists k.
  - destruct H as [Hk E]. split; [lia|]. split; [exact E|].
    assert (Hp : 0 < (stop - start + st - 1) / st) by lia.
    assert (k < (stop - start + st - 1) / st) by lia.
    assert ((stop - start + st - 1) / st * st <= stop - start + st - 1)
      by (rewrite Z.mul_comm; apply Z.mul_div_le; lia).
    nia.
  - destruct H as [Hk [E Hx]]. split; [|exact E].
    assert (k + 1 <= (stop - start + st - 1) / st).
    { apply Z.div_le_lower_bound; [lia|]. nia. }
    lia.
Qed.
Lemma range_from_length : forall n a s, length (range_from n a s) = n.
Proof. induction n; intros; simpl; auto. Qed.
Lemma range_from_sorted : forall n a s, 0 < s -> StronglySorted Z.lt (range_from n a s).
Proof.
  induction n as [|n IH]; intros a s Hs; simpl; constructor.
  - apply IH, Hs.
  - apply Forall_forall. intros x Hx. apply range_from_in in Hx. destruct Hx as [k [Hk E]]. nia.
Qed.
Lemma range_from_app : forall n m a s,
  range_from (n + m) a s = range_from n a s ++ range_from m (a + Z.of_nat n * s) s.
Proof.
  induction n as [|n IH]; intros m a s; cbn [range_from plus app].
  - f_equal. lia.
  - f_equal. rewrite IH. f_equal. f_equal. lia.
Qed.

(** ** Indexing *)
Lemma index_ok : forall A (l : list A) i d, 0 <= i < Z.of_nat (length l) ->
  index l i = Ret (nth (Z.to_nat i) l d).
Proof.
  intros A l i d H. unfold index. replace (i <? 0) with false by (symmetry; apply Z.ltb_ge; lia).
  rewrite (nth_error_nth' l d) by lia. reflexivity.
Qed.
Lemma index_ret : forall A (l : list A) i a, index l i = Ret a ->
  0 <= i < Z.of_nat (length l) /\ nth_error l (Z.to_nat i) = Some a.
Proof.
  intros A l i a H. unfold index in H. destruct (i <? 0) eqn:E; [discriminate|].
  apply Z.ltb_ge in E. apply unwrap_ret in H. split; [|exact H].
  assert (nth_error l (Z.to_nat i) <> None) by congruence. apply nth_error_Some in H0. lia.
Qed.
Lemma index_in : forall A (l : list A) i a, index l i = Ret a -> In a l.
Proof. intros A l i a H. apply index_ret in H. destruct H as [_ H]. eapply nth_error_In; eauto. Qed.

(** ** Searching a sorted slice *)
Lemma bsearch_from_spec : forall l i x, StronglySorted Z.lt l ->
  match bsearch_from i l x with
  | Found k => (i <= k)%nat /\ nth_error l (k - i) = Some x
  | NotFound k => (i <= k <= i + length l)%nat /\ ~ In x l
  end /\
  (let k := match bsearch_from i l x with Found k => k | NotFound k => k end in
   (forall y, In y (firstn (k - i) l) -> y < x) /\ (forall y, In y (skipn (k - i) l) -> x <= y)).
Proof.
  induction l as [|a l IH]; intros i x Hs; simpl.
  - split; [split; [lia | tauto]|]. replace (i - i)%nat with O by lia. simpl. tauto.
  - inversion Hs as [|a' l' Hs' Hall]; subst. rewrite Forall_forall in Hall.
    destruct (a <? x) eqn:E1.
    + apply Z.ltb_lt in E1. specialize (IH (S i) x Hs'). destruct IH as [IH1 [IH2 IH3]].
      assert (Hk : (S i <= match bsearch_from (S i) l x with Found k => k | NotFound k => k end)%nat)
        by (destruct (bsearch_from (S i) l x); lia).
      split.
      * destruct (bsearch_from (S i) l x) as [k|k].
        -- split; [lia|]. replace (k - i)%nat with (S (k - S i)) by lia. simpl. tauto.
        -- split; [lia|]. intros [H|H]; [lia | tauto].
      * set (k := match bsearch_from (S i) l x with Found k => k | NotFound k => k end) in *.
        replace (k - i)%nat with (S (k - S i)) by lia. cbn [firstn skipn]. split.
        -- intros y [H|H]; [lia | auto].
        -- exact IH3.
    + apply Z.ltb_ge in E1. destruct (a =? x) eqn:E2.
      * apply Z.eqb_eq in E2. subst. split; [split; [lia|]|].
        -- replace (i - i)%nat with O by lia. reflexivity.
        -- replace (i - i)%nat with O by lia. cbn [firstn skipn]. split; [simpl; tauto|].
           intros y [H|H]; [lia|]. specialize (Hall y H). lia.
      * apply Z.eqb_neq in E2. split; [split; [lia|]|].
        -- intros [H|H]; [lia|]. specialize (Hall x H). lia.
        -- replace (i - i)%nat with O by lia. cbn [firstn skipn]. split; [simpl; tauto|].
           intros y [H|H]; [lia|]. specialize (Hall y H). lia.
Qed.
Lemma bsearch_found : forall l x k, StronglySorted Z.lt l -> bsearch l x = Found k ->
  nth_error l k = Some x /\ In x l.
Proof.
  intros l x k Hs H. pose proof (bsearch_from_spec l 0 x Hs) as [P _]. unfold bsearch in H.
  rewrite H in P. destruct P as [_ P]. replace (k - 0)%nat with k in P by lia.
  split; [exact P | eapply nth_error_In; eauto].
Qed.
Lemma bsearch_notfound : forall l x k, StronglySorted Z.lt l -> bsearch l x = NotFound k ->
  ~ In x l /\ (k <= length l)%nat.
Proof.
  intros l x k Hs H. pose proof (bsearch_from_spec l 0 x Hs) as [P _]. unfold bsearch in H.
  rewrite H in P. destruct P as [P1 P2]. split; [exact P2 | lia].
Qed.
Lemma bsearch_is_found : forall l x, StronglySorted Z.lt l ->
  (exists k, bsearch l x = Found k) <-> In x l.
Proof.
  intros l x Hs. split.
  - intros [k H]. eapply bsearch_found; eauto.
  - intros H. destruct (bsearch l x) as [k|k] eqn:E; [eauto|].
    apply bsearch_notfound in E; tauto.
Qed.
Lemma bsearch_split : forall l x, StronglySorted Z.lt l ->
  let k := match bsearch l x with Found k => k | NotFound k => k end in
  (forall y, In y (firstn k l) -> y < x) /\ (forall y, In y (skipn k l) -> x <= y).
Proof.
  intros l x Hs. pose proof (bsearch_from_spec l 0 x Hs) as [_ P]. unfold bsearch. simpl in *.
  set (k := match bsearch_from 0 l x with Found k => k | NotFound k => k end) in *.
  replace (k - 0)%nat with k in P by lia. exact P.
Qed.

(** ** Sorted lists *)
Lemma sorted_app : forall l l', StronglySorted Z.lt l -> StronglySorted Z.lt l' ->
  (forall x y, In x l -> In y l' -> x < y) -> StronglySorted Z.lt (l ++ l').
Proof.
  induction l as [|a l IH]; intros l' H H' Hlt; simpl; [exact H'|].
  inversion H as [|a' l0 Hs Hall]; subst. constructor.
  - apply IH; auto. intros x y Hx Hy. apply Hlt; [right; exact Hx | exact Hy].
  - apply Forall_app. split; [exact Hall|]. apply Forall_forall. intros y Hy. apply Hlt; [left; reflexivity | exact Hy].
Qed.
Lemma sorted_app_inv : forall l l', StronglySorted Z.lt (l ++ l') ->
  StronglySorted Z.lt l /\ StronglySorted Z.lt l' /\ (forall x y, In x l -> In y l' -> x < y).
Proof.
  induction l as [|a l IH]; intros l' H; simpl in *.
  - split; [constructor|]. split; [exact H | tauto].
  - inversion H as [|a' l0 Hs Hall]; subst. destruct (IH l' Hs) as [H1 [H2 H3]].
    rewrite Forall_app in Hall. destruct Hall as [Ha1 Ha2]. rewrite Forall_forall in Ha2.
    split; [constructor; assumption|]. split; [assumption|].
    intros x y [->|Hx] Hy; [apply Ha2, Hy | apply H3; assumption].
Qed.
Lemma sorted_firstn : forall n l, StronglySorted Z.lt l -> StronglySorted Z.lt (firstn n l).
Proof.
  intros n l H. rewrite <- (firstn_skipn n l) in H. apply sorted_app_inv in H. tauto.
Qed.
Lemma sorted_NoDup : forall l, StronglySorted Z.lt l -> NoDup l.
Proof.
  induction l as [|a l IH]; intros H; constructor.
  - inversion H as [|a' l0 Hs Hall]; subst. rewrite Forall_forall in Hall.
    intros C. specialize (Hall a C). lia.
  - inversion H; auto.
Qed.
Lemma sorted_ext : forall l l', StronglySorted Z.lt l -> StronglySorted Z.lt l' ->
  (forall x, In x l <-> In x l') -> l = l'.
Proof.
  induction l as [|a l IH]; intros l' H H' E.
  - destruct l' as [|b l']; [reflexivity|]. exfalso. apply (E b). left. reflexivity.
  - destruct l' as [|b l']; [exfalso; apply (E a); left; reflexivity|].
    inversion H as [|a' l0 Hs Hall]; subst. inversion H' as [|b' l1 Hs' Hall']; subst.
    rewrite Forall_forall in Hall, Hall'.
    assert (a = b).
    { destruct (proj1 (E a) (or_introl eq_refl)) as [Hb|Hb]; [congruence|].
      destruct (proj2 (E b) (or_introl eq_refl)) as [Ha|Ha]; [congruence|].
      specialize (Hall b Ha). specialize (Hall' a Hb). lia. }
    subst b. f_equal. apply IH; auto. intros x. split; intros Hx.
    + destruct (proj1 (E x) (or_intror Hx)) as [C|C]; [|exact C].
      subst. specialize (Hall x Hx). lia.
    + destruct (proj2 (E x) (or_intror Hx)) as [C|C]; [|exact C].
      subst. specialize (Hall' x Hx). lia.
Qed.
Lemma lists_primes_unique : forall l l' B, lists_primes l B -> lists_primes l' B -> l = l'.
Proof.
  intros l l' B [H1 H2] [H1' H2']. apply sorted_ext; auto. intros x. rewrite H2, H2'. tauto.
Qed.

(** ** Maps *)
Lemma bt_insert_keys : forall m k v x, In x (map fst (bt_insert m k v)) <-> x = k \/ In x (map fst m).
Proof.
  induction m as [|[k' v'] m IH]; intros k v x; cbn [bt_insert map fst In].
  - intuition.
  - destruct (k <? k') eqn:E1; cbn [map fst In]; [intuition|].
    destruct (k =? k') eqn:E2; cbn [map fst In].
    + apply Z.eqb_eq in E2. subst. intuition.
    + rewrite IH. intuition.
Qed.
Lemma bt_insert_sorted : forall m k v, StronglySorted Z.lt (map fst m) ->
  StronglySorted Z.lt (map fst (bt_insert m k v)).
Proof.
  induction m as [|[k' v'] m IH]; intros k v H; cbn [bt_insert map fst].
  - constructor; constructor.
  - cbn [map fst] in H. inversion H as [|a l Hs Hall]; subst.
    destruct (k <? k') eqn:E1.
    + apply Z.ltb_lt in E1. cbn [map fst]. constructor; [exact H|]. constructor; [exact E1|].
      eapply Forall_impl; [|exact Hall]. intros; simpl in *; lia.
    + apply Z.ltb_ge in E1. destruct (k =? k') eqn:E2.
      * apply Z.eqb_eq in E2. subst. cbn [map fst]. exact H.
      * apply Z.eqb_neq in E2. cbn [map fst]. constructor; [apply IH, Hs|].
        apply Forall_forall. intros x Hx. apply bt_insert_keys in Hx. rewrite Forall_forall in Hall.
        destruct Hx as [->|Hx]; [lia | apply Hall, Hx].
Qed.
Lemma bt_get_none : forall m k, bt_get m k = None -> ~ In k (map fst m).
Proof.
  induction m as [|[k' v] m IH]; intros k H; cbn [bt_get map fst In] in *; [tauto|].
  destruct (k' =? k) eqn:E; [discriminate|]. apply Z.eqb_neq in E. intros [C|C]; [congruence | eapply IH; eauto].
Qed.
Lemma bt_get_some : forall m k v, bt_get m k = Some v -> In (k, v) m.
Proof.
  induction m as [|[k' v'] m IH]; intros k v H; cbn [bt_get In] in *; [discriminate|].
  destruct (k' =? k) eqn:E; [apply Z.eqb_eq in E; inversion H; subst; auto | right; apply IH, H].
Qed.
Lemma bt_insert_new_prod : forall m k v, bt_get m k = None ->
  prod_powers (bt_insert m k v) = k ^ v * prod_powers m.
Proof.
  induction m as [|[k' v'] m IH]; intros k v H; cbn [bt_insert prod_powers bt_get] in *; [reflexivity|].
  destruct (k' =? k) eqn:E0; [discriminate|]. apply Z.eqb_neq in E0.
  destruct (k <? k') eqn:E1; cbn [prod_powers]; [reflexivity|].
  destruct (k =? k') eqn:E2; [apply Z.eqb_eq in E2; congruence|]. cbn [prod_powers].
  rewrite IH by exact H. ring.
Qed.
Lemma bt_insert_upd_prod : forall m k v e, StronglySorted Z.lt (map fst m) -> 0 <= v -> 0 <= e ->
  bt_get m k = Some v -> prod_powers (bt_insert m k (v + e)) = k ^ e * prod_powers m.
Proof.
  induction m as [|[k' v'] m IH]; intros k v e Hs Hv He H; cbn [bt_insert prod_powers bt_get] in *; [discriminate|].
  cbn [map fst] in Hs. inversion Hs as [|a l Hs' Hall]; subst. rewrite Forall_forall in Hall.
  destruct (k' =? k) eqn:E0.
  - apply Z.eqb_eq in E0. inversion H. subst. rewrite Z.ltb_irrefl, Z.eqb_refl. cbn [prod_powers].
    rewrite Z.pow_add_r by lia. ring.
  - apply Z.eqb_neq in E0. destruct (k <? k') eqn:E1.
    + apply Z.ltb_lt in E1. apply bt_get_some in H. apply (in_map fst) in H. specialize (Hall _ H). simpl in Hall. lia.
    + destruct (k =? k') eqn:E2; [apply Z.eqb_eq in E2; congruence|]. cbn [prod_powers].
      rewrite (IH k v e) by assumption. ring.
Qed.
Lemma bt_insert_values : forall (P : Z * Z -> Prop) m k v, P (k, v) -> Forall P m -> Forall P (bt_insert m k v).
Proof.
  induction m as [|[k' v'] m IH]; intros k v Hk H; cbn [bt_insert].
  - constructor; auto.
  - inversion H; subst. destruct (k <? k'); [constructor; auto|]. destruct (k =? k'); constructor; auto.
Qed.
(** [bt_add] keeps well-formed maps well formed and multiplies their value by [k ^ e]. *)
Lemma bt_add_wf : forall m k e, wf_map m -> 1 <= e -> wf_map (bt_add m k e).
Proof.
  intros m k e [H1 H2] He. unfold bt_add. destruct (bt_get m k) as [v|] eqn:E.
  - split; [apply bt_insert_sorted, H1|]. apply bt_insert_values; [|exact H2].
    apply bt_get_some in E. rewrite Forall_forall in H2. specialize (H2 _ E). simpl in *. lia.
  - split; [apply bt_insert_sorted, H1|]. apply bt_insert_values; [simpl; lia | exact H2].
Qed.
Lemma bt_add_prod : forall m k e, wf_map m -> 0 <= e -> prod_powers (bt_add m k e) = k ^ e * prod_powers m.
Proof.
  intros m k e [H1 H2] He. unfold bt_add. destruct (bt_get m k) as [v|] eqn:E.
  - apply bt_insert_upd_prod; auto. apply bt_get_some in E. rewrite Forall_forall in H2.
    specialize (H2 _ E). simpl in *. lia.
  - apply bt_insert_new_prod. exact E.
Qed.
Lemma bt_add_keys : forall m k e x, In x (map fst (bt_add m k e)) <-> x = k \/ In x (map fst m).
Proof. intros m k e x. unfold bt_add. destruct (bt_get m k); apply bt_insert_keys. Qed.
Lemma wf_nil : wf_map [].
Proof. split; constructor. Qed.

(** closes conjunctions of computations *)
Ltac vmc := repeat match goal with |- _ /\ _ => split end; vm_compute; reflexivity.
