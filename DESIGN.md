# Formal model of num-prime in Rocq: design

## 1. Shape of the development

Everything lives in `rocq/theories/` (logical name `Verif`).

| layer | files | content |
|---|---|---|
| machine model | `Base.v` | the result monad (`Ret` / `Panic` / `NoFuel`), build profiles, integer types, checked arithmetic, random draws |
| specification | `Spec.v` | what a prime, the prime counting function, a factorization, a Lucas sequence, a strong probable prime ... are; no reference to the model |
| tables | `Tables.v` | generated verbatim from `/repo/src/tables.rs` |
| model | `Ext.v` (dependencies), `Ops.v` (the integer-type dictionaries, incl. `Mint`), `MInteger.v` (integer.rs), `MPrimality.v` (primality.rs), `MFactor.v` (factor.rs), `MSieve.v` and `MPi.v` (buffer.rs, bounds and estimates of nt_funcs.rs), `MIsPrime.v` and `MFactorize.v` (nt_funcs.rs, the buffer's is_prime and factor), `MRand.v` (rand.rs), `MTraits.v` (traits.rs), `MMint.v` (the rest of mint.rs), `MProb.v` (the f32 payload), `MFloat.v` (the floating point formulas), `MExamples.v` and `MProfile.v` (the programs in examples/) | one Gallina definition per Rust function, each citing file and lines |
| proofs | `NT*.v`, `P*.v` | number theory on `Z`, then one proof file per model file |
| theorems | `Prop*.v` | the property theorems only (`Theorem ... exact lemma.`), non-vacuity `Example`s, `Print Assumptions` |

### Execution model

* `res A := Ret a | Panic | NoFuel`. A Rust panic (overflow in a debug build, failed `unwrap`,
  out-of-bounds index, `unreachable!()`) is `Panic`. A loop without a syntactic bound takes fuel and
  yields the distinct value `NoFuel` when the fuel is exhausted, so "whenever it returns" is
  `f fuel x = Ret r -> ...` for all fuel, and termination is a separate theorem.
* `profile := Debug | Release`: in `Debug` machine arithmetic that leaves the range panics, in
  `Release` it wraps. Theorems quantify over the profile.
* `ity := U w | Big`: machine unsigned integers of width `w` or `BigUint`.
* `feature := BigTable | SmallTable`: the cargo feature `big-table` on/off.
* Random numbers (`rand::random`, `rng.gen`) are an explicit stream argument (a list of draws
  of which each is reduced to the type's width); theorems hold for all streams.
* Floating point estimates are explicit function arguments of the integer model (`MSieve.v`, `MPi.v`);
  its theorems hold for all such functions, or state the needed inequality as a hypothesis. `MFloat.v`
  models these functions over binary64 (Flocq), with `ln` and `exp` as parameters of which only a
  relative error of 2^-50 is asked; C50-C54 put the two together.
* Code that is generic over the number type is modelled as a function of a dictionary record of
  operations; dictionaries are given for `uN`, `BigUint` and `Mint<uN>`. The final theorems are
  about these concrete dictionaries.

### Dependencies (not in /repo)

`num-integer` (gcd, is_even, Roots::sqrt/cbrt/nth_root), `num-modular` (addm, mulm, powm, negm,
jacobi, PreInv division, ReducedInt), `num-traits` conversions, `bitvec`, `lru`, `std` collections are
modelled by their documented mathematical contract in `Ext.v` (e.g. `powm b e m = b^e mod m`).

## 2. Properties

For each property: what is modelled, and how it is proved.

* C01-C04 sieve buffer: `NaiveBuffer` as (list, next) with the bit sieve as a `list bool`; invariant
  "list = all primes below next" by induction over operation sequences; C04 by a concrete witness.
* C05 nprimes: from C01, with the floating point bound an oracle; unconditional in the table range.
* C06 nth_prime: loop invariant `pi = prime_pi x` for an arbitrary starting estimate.
* C07 prime_pi: Legendre/Meissel/Lehmer identity via the recursion phi(x,a-1)-phi(x,a)=phi(x/p_a,a-1)
  telescoped twice, plus the bounds that show no u64 underflow.
* C08 prime_phi: cache = finite map, invariant "every entry is right", arbitrary eviction.
* C09 primorial: product of C05.
* C10 is_prime64 accepts primes: Fermat + square roots of 1 mod p, and a finite sweep of base tables.
* C11 is_prime64 rejects composites: exactly below 2^20, by a computation over primitive integers
  (`PExact.v`: the least prime factor of every candidate, a Fermat test with the hashed base for the
  composites left over, the few exceptions run through the model); with the small table exactly below 2^32
  (C75). Above: partial, an accepted number is
  coprime to the wheel and a strong probable prime to every base used.
* C12-C14, C49 is_prime: case analysis over config, witnesses and draws on top of C10, C16, C21.
* C15 Primality: case analysis with the probability payload abstract, and over binary32.
* C16-C18 sprp/prp: Fermat, order/2-adic argument for the extra squaring.
* C19 lucasm: invariant (U_k, U_{k+1}, V_k, Q^k...) over the bits of n, Lucas doubling identities.
* C20 parameter search: loop invariant; existence of a non-residue by root counting.
* C21 Lucas tests on primes: the ring Z[x]/(x^2-Px+Q) mod p and Frobenius.
* C22 Lucas definitions: unfolding plus, for is_slprp, comparison with the textbook range.
* C23 Mint: dictionary laws proved for the Mint dictionary; same generic theorems instantiate.
* C24-C27 factor.rs: loop invariants; for squfof the reduced-form invariant of the continued fraction.
* C28-C32 factor drivers: product invariant over the work list, for all fuel and draws.
* C33-C34 moebius: from the specification of factorization; table by finite sweep over all 128 entries.
* C35 safe primes, C36-C37 next/prev prime: wheel invariants; widths.
* C38-C40 random primes: all draws; refutations by witness.
* C41-C44 integer helpers: residue arguments; all filter tables by finite sweep lifted to all inputs.
* C45 bounds functions in the table range, at every integer type.
* C46 nth_prime_est: bisection with an arbitrary estimate function.
* C47 PreInv: modular inverse argument, table checked by a finite sweep.
* C48 lookups: hash masks and wheel remainder are in range; wheel table sweep lifted by periodicity.
* C50-C51 bounds contain the truth: rounding analysis (C52) plus a sieve up to 12000000 over a primitive array (`PSieveArr.v`). On each of 244
  blocks of arguments (`PFloatTab.v`) every formula is replaced by a line with integer coefficients (a tangent or chord, justified by the
  sign of a derivative with Coq-Interval); one pass over the primes compares the line with the index of each prime on primitive integers.
* C52 rounding: an error calculus over binary64 (`FArith.v`, predicate `ap`), applied to each formula
  (`PFloat.v`); the order of lower and upper formula by interval arithmetic over ln n (`PFloat2.v`).
* C53: overflow of the conversion to f64 gives infinity, then NaN.
* C54: C46 with M = 2^20 - 1, N = 79667: brackets from C50/C52, Gram's series bounded term by term
  (`PGram.v`), is_prime64 exact below 2^20 (C11), the count of primes up to 1015809 by computation.
* C55 probabilities: rounding to binary32 is monotone and 0 and 1 are representable, so every product
  and complement of numbers in [0,1] stays there; `powi` on 0.25 by computation up to 255, underflow to
  0 beyond (`PProb.v`).
* C56 Mint: case analysis on the forms, residue arithmetic. Operations on residues of different moduli depend on the profile (num-modular
  checks the moduli with debug_assert).
* C57, C58 divisor_sigma.rs, prime_omega.rs: the list after each prime is the set of divisors of the part
  done so far; its length stays below 2^33, so the capacity never overflows. Below 2^20 (and the square
  of the table limit) factorize64 itself is exact (`C28_small`): trial division leaves 1 or a prime.
* C59 find_lucky_primes.rs: each round of the loop is one stage of the definition; after the last round
  the remaining stages leave the prefix below the limit alone, except for the limits 6 and 7.
* C60 find_mersenne_primes.rs: Pocklington certificates for the large primes (`NTPock.v`), a failing base 3 for the
  composites, C13 for the acceptance.
* C61 small numbers: C12, C28-C40 with their provisos discharged by the exactness below 2^20.

* C62 Gram's series: `SpecGram.v` defines R by its series. `PZeta.v` brackets zeta(k+1) by partial sums with integral
  remainders, `PZetaTab.v` compares the table with ln of those brackets, `PGramR.v` bounds the terms over the
  reals (they grow up to ln n and shrink after it, so stopping below e^-4 is harmless), `PGram2.v` adds rounding.
* C63 nth_prime_est: C46 with the modelled formulas. The refutation bounds both ends of the bracket and the
  estimate on the lower half of the type by interval arithmetic (`PNthEst.v`).
* C64 Rabin-Monier (`NTRabin.v`): the accepted bases lie in a group of which four cosets fit into 1..n-1; the
  coset representatives come from the Chinese remainder theorem and, for two prime factors, from a Fermat
  witness. Prime powers by counting modulo p.
* C65 documentation example (`PDoc.v`): factorize128 on numbers which the table primes reduce to 1 or a prime, with a
  Pocklington certificate for the cofactor of 2^83-1.
* C66-C68 the unit tests: `PFast.v` evaluates the tests with fast operations, which lawfulness proves equal to the
  modelled ones; Jacobi symbols by quadratic reciprocity, proved in `NTRecip.v`. Factorizations: every divisor of the
  number is tested by evaluation, so any map returned is the expected one (`PTests.v`). Primes by Pocklington
  certificates (`PCerts.v`). The counting tests (`PropTests5.v`): the counts by Legendre's formula; for nth_prime with the big table,
  is_prime64 accepts as many numbers in the bracket of each index as there are primes in it. The large composites (`PropTests6.v`): a Fermat
  power or a Lucas number modulo a divisor, computed with Bignums (`PBig.v`).
* C69 hierarchy: from the characterizations of C16, C18 and C22 and U_{2m} = U_m V_m.
* C70 lucky draws (`PDraws.v`): the total of 2*log2(x) - 1 over the work list drops in every pass when the draws are 0
  and a divisor of the current target.
* C71 shares of the primes (`PropShares.v`): the shaped draw is 2*floor(v/2)+1 for the top bits v, so the draws of a prime form an interval.
* C72 length of Pollard's rho (`PRho.v`): an invariant with three phases (before backtracking, replay of the batch, after it)
  tracking the indices of tortoise and hare and which factors the accumulator holds.
* C73 completeness of one_line (`PHart.v`, `PHart2.v`): Dirichlet approximation of c b/a by fractions u/v gives a pass u v at which
  i K is close below a square; the rounds of find_divisor then end at the latest in the one line round.
* C74 Bertrand's postulate (`NTBertrand.v`, `PBertrand.v`): Erdős' proof from the central binomial coefficient and the bound 4^n on the
  primorial, then the candidate loops of next_prime, prev_prime and gen_prime from C36-C39 with the guaranteed prime.
* C75 the bases 2, 7, 61 below 2^32 (`PPsp.v` - `PPsp4.v`): for each prime p up to 2^16 the common order L of the three bases modulo p,
  with a certificate; a pseudoprime p m has m = 1/p modulo L, so few cofactors m are left to try; for small p the search branches over the
  next prime factor, and a prime cofactor divides a gcd of three numbers a^(P-1) - 1. `node_sound` proves that nothing is missed.
  The rest is C12, C35-C40 and C73 with "accepted" replaced by "prime".
* C76 counting with the small table: C46 with M = 2^32 - 1, N = 203236859. The upper bound for the N-th prime stays below 2^32
  by interval arithmetic; pi(4294000000) = N by Legendre's formula on primitive integers (`PPiVals.v`: a table up to 2^19, the wheel
  2310, recursion over the primes up to 65536).
* C77 squfof (`PSqufof2.v`): the triples of C27 are the complete quotients of `SpecCF.v`; the invariant of the loop says that no earlier
  odd pass succeeded. `PSqufof3.v` runs the walk on primitive integers, which decides the cases of squfof_test.
* C78 prime_pi_bounds at 2953652287: the rounding theorem of C52, the formula by interval arithmetic, the count by Legendre's formula
  (`PPiVals.v`). No other argument up to 12*10^9 breaks a bound, as far as a floating point scan outside Coq can tell; that part is not proved.
* C79 the estimate between the bounds: `PEstR.v` compares Gram's sum S with each formula on each branch. exp(l)*rho(l) - S(l) (l = ln x)
  has a derivative whose sign follows from a bound on the derivative of S, so one comparison at the end of a branch decides it; the sums
  at the ends are evaluated with integer arithmetic from brackets of zeta. The rounding theorems of C52 and C62 carry it over to the values
  returned. The remaining unit tests (`C66_prime_pi_bounds_test`, `C66_nth_prime_bounds_test`) follow with C50, C51 and C63.
* C80 length of the divisor search (`PSearch.v`): pass k has the budget 2^(k/3) until it overflows usize; with a budget of 0 no method makes an
  iteration. Debug termination of factorize64 and (`PSearch2.v`) factorize128: the weights of C70 decrease in every pass of the work list.
* C81 last primes (`PropLast.v`): Pocklington certificates for the last primes; behind them is_prime64 is run on each number, and for 128 bits
  each odd number has a listed divisor that refutes the Fermat test to base 2, so base 2 alone rejects it.
* C82 the profiling example (`MProfile.v`, `PropProfile.v`): C25-C27 and C77 per call, an invariant over the multipliers for the best values,
  C74 for the sizes of the two primes; for 27 bits the first prime is at most 2^13 - 1, which is prime, and the second is larger.
* The large primes of is_prime_test (C66): certificates on N - 1 (Pocklington) or N + 1 (Morrison, `NTMorrison.v`: the rank of apparition of
  a prime divisor in a Lucas sequence), evaluated on Bignums; `PCerts2.v` lists them.
* `PropCache.v` states the cache of prime_phi by itself (what get and put do), and the reading of the decimal literals of the zeta table.

## 3. Trusted base

* Coq 8.16.1: its kernel, including the virtual machine (`vm_compute`) and, for C11 (20 and 32 bit), the theorems using it and
  C50-C54, C62, C63, C76, C78 and C79, the primitive 63-bit integers and the primitive arrays (C50, C51, C54, C76). `coqchk` rechecks everything without the virtual machine.
* Axioms, as printed by `Print Assumptions` beneath each theorem in the `Prop*.v` files:
  * every theorem of C01-C49, C56-C61 and C64-C77, C80-C82, and `C63_crossing`, except those named next: closed under the global context;
  * `C11_is_prime64_exact_20bit`, `C28_small`, `C57_divisors_small`, `C57_sigma_small`, `C58_omega_small`, `C59_lucky_primes`, C61, `C66_is_safe_prime_test`, `C67_random_composites`, `C68_lucas_pseudoprimes`, `C68_lucas_limits`, `C71_share_small`, `C66_squfof_test`, `C66_large_composites`, `C66_large_primes_default`, `C66_large_primes_bpsw`, `C11_is_prime64_exact_32bit_small`, C75: the primitive integer operations and their specification axioms
    (`PrimInt63`, `Uint63` of the standard library);
  * C53, C55, `C15_payload_*`, `C64_certain_composite_refuted`: the standard library's real numbers (`ClassicalDedekindReals.sig_forall_dec`, `sig_not_dec`,
    `functional_extensionality_dep`) and `Classical_Prop.classic`, which Flocq's proofs use;
  * C50, C51, C52, C54, C62, C63, C76, C78, C79, `C66_prime_pi_test`, `C66_nth_prime_test`, `C66_prime_pi_bounds_test`, `C66_nth_prime_bounds_test`: both of the above; those resting on the sieve (C50, C51, C54,
    C76 and the four tests) also the primitive array operations with `get_make`, `get_set_same`, `get_set_other`, `length_make`, `length_set`
    (`PArray`); those and C79 also the primitive floats and their specification (`PrimFloat`, `FloatAxioms`), which Coq-Interval evaluates with.
* Libraries: the standard library, Flocq (binary64), Coq-Interval (with Coquelicot, mathcomp, Bignums)
  for proofs about real inequalities and (Bignums) for powers modulo large numbers.
* The transcription of the Rust code into Gallina (each definition cites its source lines; the tables
  are generated from the source text), and the properties' statements in `Spec.v` and `Prop*.v`.
* The contracts of the dependencies in `Ext.v` (listed above), and of the platform's `ln` and `exp`
  (`ln_ok`, `exp_ok`); both contracts are shown to be met by the correctly rounded functions.

### Modelled

`src/buffer.rs` (NaiveBuffer, all of PrimeBufferExt), `src/factor.rs` (trial_division, pollard_rho,
squfof with its iteration, one_line), `src/integer.rs` (ExactRoots and its tables, the helpers),
`src/mint.rs` (as a dictionary of operations, and all other operations), `src/nt_funcs.rs` (all public functions), `src/primality.rs` (all of
PrimalityUtils and Lucas), `src/rand.rs` (all generators), `src/tables.rs` (all tables but the doc text),
`src/traits.rs` (Primality, the configurations, BitTest as used), `examples/*.rs`
without their printing.

### Not modelled

* Iterator and trait plumbing without content of its own (IntoIterator, Index, Default, Display).
* Memory: an allocation failure is not a result of the model; time is modelled only as fuel.
* The ModInt implementations inside num-modular (contracts only); signed integers except ExactRoots.
* Concurrency and the thread-local random generator: randomness is an explicit stream.
* Platforms whose usize is not 64 bits.

## 4. Tests against wrong programs

`seeded/LOG.jsonl` has one line per attempt. Each attempt edits one definition of the model in a scratch
copy of this development and rebuilds it. A proof that no longer goes through is admitted in the scratch
copy so that the build can go on; "failed" lists the property theorems whose own proof broke or that
depend on a lemma whose proof broke. An attempt with an empty "failed" list shows a claim that was not
covered; "tightened" names the theorem added for it, and the attempt is repeated afterwards. Some edits
turned out to leave the program correct; their lines say so.

The lines whose note begins with "the build stopped at" come from a systematic run: every comparison,
arithmetic operator, literal, condition and argument order of the model's definitions is a candidate for
one small edit, and a random sample of these was built. There the scratch build stops at the first proof
that breaks, no proof is admitted, and "failed" lists the property theorems that rest on that lemma by
the dependency graph of the sources. It does not claim that each of them was seen to become false.
