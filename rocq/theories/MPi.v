(** * Model of nth_prime, prime_phi, prime_pi (src/buffer.rs:387-475). *)
From Coq Require Import ZArith List Bool.
From Verif Require Import Base Ext MInteger MSieve MIsPrime.
Import ListNotations.
Local Open Scope Z_scope.

(** lru::LruCache<(u64, usize), u64>: capacity and entries, most recently used first. *)
Definition lru := list ((Z * Z) * Z).
Definition key_eqb (k k' : Z * Z) : bool := (fst k =? fst k') && (snd k =? snd k').
Fixpoint lru_find (c : lru) (k : Z * Z) : option Z :=
  match c with
  | [] => None
  | (k', v) :: c' => if key_eqb k' k then Some v else lru_find c' k
  end.
Definition lru_remove (c : lru) (k : Z * Z) : lru :=
  filter (fun e => negb (key_eqb (fst e) k)) c.
(** [cache.get(&k)]: value and the reordered cache *)
Definition lru_get (c : lru) (k : Z * Z) : option Z * lru :=
  match lru_find c k with
  | Some v => (Some v, (k, v) :: lru_remove c k)
  | None => (None, c)
  end.
(** [cache.put(k, v)]: insert in front, evict the least recently used entry beyond [cap] *)
Definition lru_put (cap : Z) (c : lru) (k : Z * Z) (v : Z) : lru :=
  firstn (Z.to_nat cap) ((k, v) :: lru_remove c k).

Section Pi.
Context (f : feature) (pf : profile).
(** [bounds]: floating point part of nth_prime_bounds; [est]: nth_prime_est on u64. *)
Context (bounds : Z -> option (Z * Z)) (est : Z -> res (option Z)).
(** bounds on the loops of prev_prime / next_prime and of the search in nth_prime *)
Context (fuel_next fuel_walk : Z).

(** [prev_prime(&x, None).unwrap()] / [next_prime(&x, None).unwrap()] on u64: below 2^64 no random
    witnesses and no Lucas test are used, so no draws and no Lucas fuel are needed. *)
Definition prev64 (x : Z) : res Z :=
  '(r, _) <- prev_prime f pf u64 0 fuel_next x None [] ;; unwrap r.
Definition next64 (x : Z) : res Z :=
  '(r, _) <- next_prime f pf u64 0 fuel_next x None [] ;; unwrap r.

(** src/buffer.rs:406-413: walking from the estimate; state (x, pi) *)
Definition walk (n x pi : Z) : res Z :=
  '(x, pi) <- loop fuel_walk (fun '(x, pi) =>
      if n <? pi then x' <- prev64 x ;; pi' <- sub_ pf u64 pi 1 ;; Ret (Next (x', pi'))
      else Ret (Done (x, pi))) (x, pi) ;;
  '(x, _) <- loop fuel_walk (fun '(x, pi) =>
      if pi <? n then x' <- next64 x ;; pi' <- add_ pf u64 pi 1 ;; Ret (Next (x', pi'))
      else Ret (Done (x, pi))) (x, pi) ;;
  Ret x.

(** src/buffer.rs:391-415 nth_prime, with the recursive call to prime_pi as an argument *)
Definition nth_prime_body (prime_pi : buffer -> Z -> res (Z * buffer)) (b : buffer) (n : Z)
    : res (Z * buffer) :=
  if n <? Z.of_nat (length (b_list b)) then
    v <- index (b_list b) (n - 1) ;; Ret (v, b)
  else if n <=? 4096 then
    '(l, b') <- buf_nprimes f pf bounds b n ;;
    v <- (match l with [] => Panic | y :: l' => Ret (last l' y) end) ;; Ret (v, b')
  else
    e <- est n ;; e' <- unwrap e ;;
    x <- prev64 e' ;;
    '(pi, b') <- prime_pi b x ;;
    x' <- walk n x pi ;;
    Ret (x', b').

(** The three mutually recursive functions; [fuel] bounds the depth of the recursion. *)
Fixpoint prime_pi (fuel : nat) (b : buffer) (limit : Z) {struct fuel} : res (Z * buffer) :=
  (* src/buffer.rs:436-475 *)
  match fuel with
  | O => NoFuel
  | S k =>
      top <- buf_bound b ;;
      if (limit <=? top) || (limit <=? 38873) then
        b' <- reserve pf b limit ;;
        Ret (Z.of_nat (upto_position (b_list b') limit), b')
      else
        let rb := ext_sqrt limit in
        let ra := ext_sqrt rb in
        let rc := iroot 3 limit in
        b1 <- reserve pf b rb ;;
        '(a, b2) <- prime_pi k b1 ra ;;
        '(bb, b3) <- prime_pi k b2 rb ;;
        '(c, b4) <- prime_pi k b3 rc ;;
        if a =? 0 then Panic
        else
          '(phi, b5, _) <- prime_phi k b4 limit a a [] ;;
          t1 <- add_ pf u64 bb a ;; t2 <- sub_ pf u64 t1 2 ;;
          t3 <- sub_ pf u64 bb a ;; t4 <- add_ pf u64 t3 1 ;;
          t5 <- mul_ pf u64 t2 t4 ;; t6 <- div_ t5 2 ;;
          sum0 <- add_ pf u64 phi t6 ;;
          '(sum, b6) <-
            foldM (fun '(sum, bf) i =>
              '(pi_, bf1) <- nth_prime k bf i ;;
              w <- div_ limit pi_ ;;
              '(piw, bf2) <- prime_pi k bf1 w ;;
              sum1 <- sub_ pf u64 sum piw ;;
              if i <=? c then
                '(l, bf3) <- prime_pi k bf2 (ext_sqrt w) ;;
                (* sum += (l * (l - 1) - i * (i - 3)) / 2 - 1 *)
                l1 <- sub_ pf u64 l 1 ;; ll <- mul_ pf u64 l l1 ;;
                i3 <- sub_ pf u64 i 3 ;; ii <- mul_ pf u64 i i3 ;;
                d <- sub_ pf u64 ll ii ;; d2 <- div_ d 2 ;; d3 <- sub_ pf u64 d2 1 ;;
                sum2 <- add_ pf u64 sum1 d3 ;;
                foldM (fun '(sum, bf) j =>
                  '(pj, bg1) <- nth_prime k bf j ;;
                  q <- div_ w pj ;;
                  '(pq, bg2) <- prime_pi k bg1 q ;;
                  sum' <- sub_ pf u64 sum pq ;;
                  Ret (sum', bg2))
                  (range_step i (l + 1) 1) (sum2, bf3)
              else Ret (sum1, bf2))
              (range_step (a + 1) (bb + 1) 1) (sum0, b5) ;;
          Ret (sum, b6)
  end
with prime_phi (fuel : nat) (b : buffer) (x a cap : Z) (cache : lru) {struct fuel}
    : res (Z * buffer * lru) :=
  (* src/buffer.rs:418-431; [cap] is the capacity of the cache *)
  match fuel with
  | O => NoFuel
  | S k =>
      if a =? 1 then s <- add_ pf u64 x 1 ;; r <- div_ s 2 ;; Ret (r, b, cache)
      else
        match lru_get cache (x, a) with
        | (Some v, cache') => Ret (v, b, cache')
        | (None, cache') =>
            a1 <- sub_ pf usize a 1 ;;
            '(t1, b1, c1) <- prime_phi k b x a1 cap cache' ;;
            '(pa, b2) <- nth_prime k b1 a ;;
            q <- div_ x pa ;;
            a2 <- sub_ pf usize a 1 ;;
            '(t2, b3, c2) <- prime_phi k b2 q a2 cap c1 ;;
            t <- sub_ pf u64 t1 t2 ;;
            Ret (t, b3, lru_put cap c2 (x, a) t)
        end
  end
with nth_prime (fuel : nat) (b : buffer) (n : Z) {struct fuel} : res (Z * buffer) :=
  match fuel with
  | O => NoFuel
  | S k => nth_prime_body (prime_pi k) b n
  end.

(** src/nt_funcs.rs:549-551, 556-558: on a new buffer *)
Definition nt_prime_pi (fuel : nat) (limit : Z) : res Z :=
  '(r, _) <- prime_pi fuel (buf_new f) limit ;; Ret r.
Definition nt_nth_prime (fuel : nat) (n : Z) : res Z :=
  '(r, _) <- nth_prime fuel (buf_new f) n ;; Ret r.
End Pi.
