(** * Model of the factorization drivers: src/nt_funcs.rs:143-497, 568-636 and
    src/buffer.rs:108-251. *)
From Coq Require Import ZArith List Bool.
From Verif Require Import Base Ext Tables MInteger Ops MPrimality MTraits MFactor MSieve MIsPrime.
Import ListNotations.
Local Open Scope Z_scope.

Section Factorize.
Context (f : feature) (pf : profile).
(** [lf]: fuel of the Lucas parameter searches; [fuel]: bound on every unbounded loop *)
Context (lf : nat) (fuel : Z).

(** ** Trial division by the table *)

(** src/nt_funcs.rs:185-188, 345-348: [while residual % p == 0] *)
Definition divide_out (residual p : Z) : res (Z * Z) :=
  loop fuel (fun '(r, e) =>
    m <- rem_ r p ;;
    if m =? 0 then r' <- div_ r p ;; Ret (Next (r', e + 1)) else Ret (Done (r, e)))
    (residual, 0).
(** src/nt_funcs.rs:209-213, 362-366: [while let Some(q) = residual.div_exact(p, &pinv)] *)
Definition divide_out_inv (wide : bool) (residual p : Z) (pinv : Z * Z) : res (Z * Z) :=
  loop fuel (fun '(r, e) =>
    match (if wide then preinv_div128 r p pinv else preinv_div64 r pinv) with
    | Some q => Ret (Next (q, e + 1))
    | None => Ret (Done (r, e))
    end) (residual, 0).

(** The table primes after 2, each with its division method. *)
Definition table_divide (wide : bool) (residual : Z) (entry : Z * (Z * Z)) : res (Z * Z) :=
  match f with
  | SmallTable => divide_out residual (fst entry)
  | BigTable => divide_out_inv wide residual (fst entry) (snd entry)
  end.
Definition table_entries : list (Z * (Z * Z)) :=
  match f with
  | SmallTable => map (fun p => (p, (0, 0))) (tl (SMALL_PRIMES f))
  | BigTable => tl (combine (SMALL_PRIMES f) SMALL_PRIMES_INV)
  end.

(** src/nt_funcs.rs:178-222 ([tsqrt] = Some _), 343-374 (factorize128: no early stop);
    returns (result, residual, factored) *)
Fixpoint table_loop (wide : bool) (tsqrt : option Z) (entries : list (Z * (Z * Z))) (residual : Z)
    (result : list (Z * Z)) : res (list (Z * Z) * Z * bool) :=
  match entries with
  | [] => Ret (result, residual, false)
  | en :: rest =>
      if (match tsqrt with Some ts => ts <? fst en | None => false end)
      then Ret (result, residual, true)
      else
        '(residual', e) <- table_divide wide residual en ;;
        let result' := if 0 <? e then bt_add result (fst en) e else result in
        if residual' =? 1 then Ret (result', residual', true)
        else table_loop wide tsqrt rest residual' result'
  end.

(** ** Finding a divisor of a composite cofactor *)

(** src/nt_funcs.rs:293-301, 454-462: all squfof multipliers in turn *)
Fixpoint squfof_multi (t : ity) (ks : list Z) (target ratio : Z) : res (option Z) :=
  match ks with
  | [] => Ret None
  | k :: ks' =>
      match checked t (target * k) with
      | None => squfof_multi t ks' target ratio
      | Some mul_target =>
          r2 <- mul_ pf usize ratio 2 ;;
          max_iter <- mul_ pf usize r2 (ext_sqrt (ext_sqrt mul_target)) ;;
          '(r, _) <- squfof f pf t fuel target mul_target max_iter ;;
          match r with
          | Some p => Ret (Some p)
          | None => squfof_multi t ks' target ratio
          end
      end
  end.

(** src/nt_funcs.rs:264-314, 425-475: one pass of the method loop at width [w];
    state (i, max_iter_ratio, draws) *)
Definition method_step (w target : Z) (st : Z * Z * draws)
    : res (step (Z * Z * draws) (Z * draws)) :=
  let '(i, ratio, dr) := st in
  '(found, dr') <-
    (if i mod 3 =? 0 then
       '(r1, dr1) <- draw w dr ;; '(r2, dr2) <- draw w dr1 ;;
       start <- reduced_new r1 target ;; offset <- reduced_new r2 target ;;
       max_iter <- shl_ pf usize ratio (bt_bits target / 6) ;;
       '(r, _) <- pollard_rho pf (mops pf (U w)) (ML target) start offset max_iter ;;
       Ret (option_map mint_val r, dr2)
     else if i mod 3 =? 1 then
       let mul_target := match checked (U w) (target * 480) with Some m => m | None => target end in
       max_iter <- shl_ pf usize ratio (bt_bits mul_target / 6) ;;
       '(r, _) <- one_line f pf (U w) target mul_target max_iter ;;
       Ret (r, dr)
     else
       r <- squfof_multi (U w) SQUFOF_MULTIPLIERS target ratio ;;
       Ret (r, dr)) ;;
  match found with
  | Some p => Ret (Done (p, dr'))
  | None =>
      i' <- add_ pf usize i 1 ;;
      ratio' <- (if i' mod 3 =? 0 then mul_ pf usize ratio 2 else Ret ratio) ;;
      Ret (Next (i', ratio', dr'))
  end.
Definition find_divisor (w target : Z) (dr : draws) : res (Z * draws) :=
  loop fuel (method_step w target) (0, 1, dr).

(** src/nt_funcs.rs:243-317: one pass; state (todo with its top first, factored, draws) *)
Definition adv64_step (st : list (Z * Z) * list (Z * Z) * draws)
    : res (step (list (Z * Z) * list (Z * Z) * draws) (list (Z * Z) * draws)) :=
  let '(todo, factored, dr) := st in
  match todo with
  | [] => Ret (Done (factored, dr))
  | (target, exp) :: todo' =>
      b <- is_prime64_miller f pf target ;;
      if b then Ret (Next (todo', factored ++ [(target, exp)], dr))
      else
        sq <- sqrt_exact f pf u64 target ;;
        match sq with
        | Some d => e2 <- mul_ pf usize exp 2 ;; Ret (Next ((d, e2) :: todo', factored, dr))
        | None =>
            cb <- cbrt_exact f pf u64 target ;;
            match cb with
            | Some d => e3 <- mul_ pf usize exp 3 ;; Ret (Next ((d, e3) :: todo', factored, dr))
            | None =>
                '(divisor, dr') <- find_divisor 64 target dr ;;
                co <- div_ target divisor ;;
                Ret (Next ((co, exp) :: (divisor, exp) :: todo', factored, dr'))
            end
        end
  end.
(** src/nt_funcs.rs:239-319 factorize64_advanced ([cofactors] listed with the last one first, the
    order in which [todo.pop()] takes them) *)
Definition factorize64_advanced (cofactors : list (Z * Z)) (dr : draws) : res (list (Z * Z) * draws) :=
  loop fuel adv64_step (cofactors, [], dr).

(** [for (p, exp) in ... { *result.entry(p).or_insert(0) += exp }] *)
Definition merge_factors (result new : list (Z * Z)) : list (Z * Z) :=
  fold_left (fun m pe => bt_add m (fst pe) (snd pe)) new result.

(** src/nt_funcs.rs:148-236 factorize64 *)
Definition factorize64 (target : Z) (dr : draws) : res (list (Z * Z) * draws) :=
  let f2 := bt_trailing_zeros u64 target in
  pr <- (if f2 =? 0 then is_prime64 f pf target else Ret false) ;;
  if pr then Ret ([(target, 1)], dr)
  else
    let result := if f2 =? 0 then [] else [(2, f2)] in
    tsqrt <- add_ pf u64 (ext_sqrt target) 1 ;;
    residual <- shr_ pf u64 target f2 ;;
    '(result, residual, factored) <- table_loop false (Some tsqrt) table_entries residual result ;;
    if factored then
      Ret (if residual =? 1 then result else bt_insert result residual 1, dr)
    else
      '(fs, dr') <- factorize64_advanced [(residual, 1)] dr ;;
      Ret (merge_factors result fs, dr').

(** [u64::try_from(d)]: route a cofactor to the 64 bit or the 128 bit work list *)
Definition route (d e : Z) (todo128 todo64 : list (Z * Z)) : list (Z * Z) * list (Z * Z) :=
  if d <? 2 ^ 64 then (todo128, (d, e) :: todo64) else ((d, e) :: todo128, todo64).

(** src/nt_funcs.rs:394-488: one pass; state (todo128, todo64, factored, draws) *)
Definition adv128_step (st : list (Z * Z) * list (Z * Z) * list (Z * Z) * draws)
    : res (step (list (Z * Z) * list (Z * Z) * list (Z * Z) * draws)
                (list (Z * Z) * list (Z * Z) * draws)) :=
  let '(todo128, todo64, factored, dr) := st in
  match todo128 with
  | [] => Ret (Done (todo64, factored, dr))
  | (target, exp) :: todo' =>
      '(b, dr1) <- mint_probably f pf u128 lf target (Some pc_bpsw) dr ;;
      if b then Ret (Next (todo', todo64, factored ++ [(target, exp)], dr1))
      else
        sq <- sqrt_exact f pf u128 target ;;
        match sq with
        | Some d =>
            e2 <- mul_ pf usize exp 2 ;;
            let '(t128, t64) := route d e2 todo' todo64 in Ret (Next (t128, t64, factored, dr1))
        | None =>
            cb <- cbrt_exact f pf u128 target ;;
            match cb with
            | Some d =>
                e3 <- mul_ pf usize exp 3 ;;
                let '(t128, t64) := route d e3 todo' todo64 in Ret (Next (t128, t64, factored, dr1))
            | None =>
                '(divisor, dr2) <- find_divisor 128 target dr1 ;;
                let '(t128, t64) := route divisor exp todo' todo64 in
                co <- div_ target divisor ;;
                let '(t128', t64') := route co exp t128 t64 in
                Ret (Next (t128', t64', factored, dr2))
            end
        end
  end.
(** src/nt_funcs.rs:383-497 factorize128_advanced, for one cofactor (its only use) *)
Definition factorize128_advanced (co e : Z) (dr : draws) : res (list (Z * Z) * draws) :=
  let '(t128, t64) := route co e [] [] in
  '(todo64, factored, dr1) <- loop fuel adv128_step (t128, t64, [], dr) ;;
  '(fs, dr2) <- factorize64_advanced todo64 dr1 ;;
  Ret (factored ++ fs, dr2).

(** src/nt_funcs.rs:323-381 factorize128 *)
Definition factorize128 (target : Z) (dr : draws) : res (list (Z * Z) * draws) :=
  if target <? 2 ^ 64 then factorize64 target dr
  else
    let f2 := bt_trailing_zeros u128 target in
    let result := if f2 =? 0 then [] else [(2, f2)] in
    residual <- shr_ pf u128 target f2 ;;
    '(result, residual, factored) <- table_loop true None table_entries residual result ;;
    if factored then Ret (result, dr)
    else
      '(fs, dr') <- factorize128_advanced residual 1 dr ;;
      Ret (merge_factors result fs, dr').

(** ** PrimeBufferExt: divisor, factors, factorize, at an unsigned type [t] *)
Section Ext.
Context (t : ity) (buf : list Z).
Let OP := uops f pf t.

(** src/buffer.rs:215-225: [Some (Some p)] = return Some(p), [Some None] = return None,
    [None] = go on *)
Fixpoint divisor_td (ps : list Z) (target tsqrt limit : Z) : res (option (option Z)) :=
  match ps with
  | [] => Ret None
  | p :: ps' =>
      pt <- o_const OP p ;;
      if tsqrt <? pt then Ret (Some None)
      else if limit <? pt then Ret None
      else
        m <- o_is_multiple_of OP target pt ;;
        if m then Ret (Some (Some pt)) else divisor_td ps' target tsqrt limit
  end.

(** src/buffer.rs:230-248: one pass; state (rho_trials, draws) *)
Definition divisor_step (target : Z) (st : Z * draws)
    : res (step (Z * draws) (option Z * Z * draws)) :=
  let '(trials, dr) := st in
  let w := if target <? 2 ^ 64 then 8 else 64 in
  '(r1, dr1) <- draw w dr ;; c1 <- o_const OP r1 ;; start <- o_rem OP c1 target ;;
  '(r2, dr2) <- draw w dr1 ;; c2 <- o_const OP r2 ;; offset <- o_rem OP c2 target ;;
  '(r, _) <- pollard_rho pf OP target start offset 1048576 ;;
  match r with
  | Some p => Ret (Done (Some p, trials - 1, dr2))
  | None => Ret (Next (trials - 1, dr2))
  end.

(** src/buffer.rs:202-251 divisor; returns (divisor, remaining rho_trials, draws). Note that the
    trial division is entered exactly when [td_limit = Some(0)], as in the source. *)
Definition divisor (target : Z) (td : option Z) (trials : Z) (dr : draws)
    : res (option Z * Z * draws) :=
  early <- (match td with
            | Some 0 =>
                r <- o_sqrt OP target ;; one <- o_one OP ;; tsqrt <- o_add OP r one ;;
                l <- o_const OP 0 ;;
                divisor_td buf target tsqrt (if l <? tsqrt then l else tsqrt)
            | _ => Ret None
            end) ;;
  match early with
  | Some r => Ret (r, trials, dr)
  | None =>
      r <- iter trials (divisor_step target) (trials, dr) ;;
      match r with
      | Done x => Ret x
      | Next (trials', dr') => Ret (None, trials', dr')
      end
  end.

(** src/buffer.rs:156-170: one pass; state (todo, result, failed, rho_trials, draws) *)
Definition factors_step (pc : prime_config) (st : list Z * list (Z * Z) * list Z * Z * draws)
    : res (step (list Z * list (Z * Z) * list Z * Z * draws) (list (Z * Z) * list Z * draws)) :=
  let '(todo, result, failed, trials, dr) := st in
  match todo with
  | [] => Ret (Done (result, failed, dr))
  | target :: todo' =>
      '(p, dr1) <- is_prime f pf OP no_probs lf buf target (Some pc) dr ;;
      if probably p then Ret (Next (todo', bt_add result target 1, failed, trials, dr1))
      else
        '(d, trials', dr2) <- divisor target (Some 0) trials dr1 ;;
        match d with
        | Some dv =>
            co <- o_div OP target dv ;;
            Ret (Next (co :: dv :: todo', result, failed, trials', dr2))
        | None => Ret (Next (todo', result, failed ++ [target], trials', dr2))
        end
  end.

(** [collect()] of an iterator of (key, value) into a BTreeMap *)
Definition collect_map (l : list (Z * Z)) : res (list (Z * Z)) :=
  foldM (fun m kv => k <- o_const OP (fst kv) ;; Ret (bt_insert m k (snd kv))) l [].

(** src/buffer.rs:117-179 factors *)
Definition factors (target : Z) (config : option factor_config) (dr : draws)
    : res (list (Z * Z) * option (list Z) * draws) :=
  if target <? 2 ^ 128 then
    '(fs, dr') <- factorize128 target dr ;;
    m <- collect_map fs ;;
    Ret (m, None, dr')
  else
    let config := match config with Some c => c | None => fc_default end in
    '(td, factored) <- trial_division OP fuel buf target (td_limit config) ;;
    result <- collect_map td ;;
    '(result', failed, dr') <-
      (match factored with
       | inl r => Ret (if r =? 1 then result else bt_insert result r 1, [], dr)
       | inr r => loop fuel (factors_step (primality_config config))
                       ([r], result, [], rho_trials config, dr)
       end) ;;
    Ret (result', match failed with [] => None | _ => Some failed end, dr').

(** src/buffer.rs:185-196 factorize: retry until nothing is left over *)
Definition factorize (target : Z) (dr : draws) : res (list (Z * Z) * draws) :=
  loop fuel (fun dr =>
    '(m, rest, dr') <- factors target None dr ;;
    match rest with
    | None => Ret (Done (m, dr'))
    | Some _ => Ret (Next dr')
    end) dr.
End Ext.

(** src/nt_funcs.rs:512-530 factors, factorize: on a new buffer *)
Definition nt_factors (t : ity) (target : Z) (config : option factor_config) (dr : draws) :=
  factors t (buf_iter (buf_new f)) target config dr.
Definition nt_factorize (t : ity) (target : Z) (dr : draws) :=
  factorize t (buf_iter (buf_new f)) target dr.

(** ** Moebius *)

(** src/nt_funcs.rs:617-625 moebius_factorized *)
Definition moebius_factorized (m : list (Z * Z)) : Z :=
  if existsb (fun pe => 1 <? snd pe) m then 0
  else if Z.of_nat (length m) mod 2 =? 0 then 1 else -1.

(** src/nt_funcs.rs:592-612: odd targets *)
Definition moebius_odd (t : ity) (target : Z) (dr : draws) : res (Z * draws) :=
  v <- sub_ pf t target 1 ;;
  if v <? 256 then
    m <- index MOEBIUS_ODD (Z.shiftr v 6) ;;
    mask <- shl_ pf u64 3 (Z.land v 63) ;;
    m' <- shr_ pf u64 (Z.land m mask) (Z.land v 63) ;;
    Ret (m' - 1, dr)
  else
    c9 <- unwrap (from_prim t 9) ;; c25 <- unwrap (from_prim t 25) ;; c49 <- unwrap (from_prim t 49) ;;
    if (target mod c9 =? 0) || (target mod c25 =? 0) || (target mod c49 =? 0) then Ret (0, dr)
    else
      '(m, dr') <- nt_factorize t target dr ;;
      Ret (moebius_factorized m, dr').

(** src/nt_funcs.rs:577-613 moebius. The recursive call of line 588 is on target / 2 with
    target = 2 (mod 4), hence on an odd number. *)
Definition moebius (t : ity) (target : Z) (dr : draws) : res (Z * draws) :=
  if Z.even target then
    if target mod 4 =? 0 then Ret (0, dr)
    else
      half <- div_ target 2 ;;
      '(v, dr') <- moebius_odd t half dr ;; Ret (- v, dr')
  else moebius_odd t target dr.

(** src/nt_funcs.rs:631-636 is_square_free *)
Definition is_square_free (t : ity) (target : Z) (dr : draws) : res (bool * draws) :=
  '(v, dr') <- moebius t target dr ;; Ret (negb (v =? 0), dr').
End Factorize.
