{"id": "C01", "title": "Prime buffer content is exact after any history", "statement": "After any finite sequence of operations on a NaiveBuffer (creation, reserve, clear, primes, nprimes, nth_prime, prime_phi, prime_pi), in any order and with any arguments up to 2^32-1, iterating over the buffer yields exactly the primes below some odd bound, each once, in increasing order, and at least the primes up to 53.", "quantifier": "all operation sequences, all limits, both table features, both build profiles", "why_tests_cant": "the state depends on the whole history of sieve extensions and resets; tests try a handful of sequences", "anchors": ["src/buffer.rs: NaiveBuffer::{new,reserve,clear,iter}"]}
{"id": "C02", "title": "primes(limit) / into_primes(limit) return exactly the primes up to limit", "statement": "For every limit <= 2^64-3 and every buffer history, primes(limit) yields exactly the primes p <= limit in increasing order, whatever was previously in the buffer; likewise the free function primes(limit).", "quantifier": "all limits and all prior histories", "why_tests_cant": "infinitely many limit/history pairs", "anchors": ["src/buffer.rs: NaiveBuffer::{primes,into_primes}", "src/nt_funcs.rs: primes"]}
{"id": "C03", "title": "contains and bound describe the buffer", "statement": "For every reachable buffer and every x not exceeding the buffer's bound, contains(x) is true iff x is prime; bound() is a prime held in the buffer and no larger prime is held.", "quantifier": "all reachable buffers, all x", "why_tests_cant": "depends on history and on every query", "anchors": ["src/buffer.rs: NaiveBuffer::{contains,bound}"]}
{"id": "C04", "title": "reserve reaches the requested limit", "statement": "Documented: reserve(limit) generates primes until the largest prime in the buffer is equal to or larger than limit. (Refuted: the largest held prime may stay below limit; what holds is that every prime <= limit is present afterwards.)", "quantifier": "all limits and histories", "why_tests_cant": "the doc claim fails only for limits with no prime in a short window above", "anchors": ["src/traits.rs: PrimeBuffer::reserve", "src/buffer.rs: NaiveBuffer::reserve"]}
{"id": "C05", "title": "nprimes(count) returns the first count primes", "statement": "For every count and history, nprimes(count) yields the first count primes in order, provided the estimated upper bound used for the count-th prime is at least that prime; unconditionally for every count covered by the prime table.", "quantifier": "all counts, all histories, all behaviours of the floating point estimate", "why_tests_cant": "history and estimate dependent", "anchors": ["src/buffer.rs: NaiveBuffer::{nprimes,into_nprimes}", "src/nt_funcs.rs: nprimes"]}
{"id": "C06", "title": "nth_prime(n) is the n-th prime", "statement": "Whenever nth_prime(n) returns for n >= 1 it returns the prime p with exactly n primes <= p, whatever the initial estimate and whatever the buffer history; nth_prime(0) panics.", "quantifier": "all n, histories, estimates", "why_tests_cant": "search from a floating point estimate; must be right for every estimate", "anchors": ["src/buffer.rs: NaiveBuffer::nth_prime", "src/nt_funcs.rs: nth_prime"]}
{"id": "C07", "title": "prime_pi(limit) counts the primes up to limit", "statement": "For every limit < 2^64-1 and every buffer history, whenever prime_pi(limit) returns it returns the number of primes <= limit, and none of the u64 intermediate subtractions underflow; the sieve branch and the Meissel-Lehmer branch agree. (The documented claim fails for limit = 2^64-1, where a debug build overflows.)", "quantifier": "all limits, all histories, all cache evictions", "why_tests_cant": "combinatorial identity over all limits, with unsigned intermediate arithmetic", "anchors": ["src/buffer.rs: NaiveBuffer::prime_pi", "src/nt_funcs.rs: prime_pi"]}
{"id": "C08", "title": "prime_phi is Legendre's partial sieve function whatever the cache evicts", "statement": "For every x < 2^64-1 and every a >= 1, prime_phi(x,a) is the number of integers in 1..x divisible by none of the first a primes, for every cache content consistent with earlier calls and every cache capacity; a = 0 panics in debug builds. The cache keeps the entries in order of use: a key found moves to the front, a stored key goes to the front, and a full cache drops the entry used longest ago.", "quantifier": "all x, a, all cache capacities and eviction choices", "why_tests_cant": "memoisation with eviction: depends on cache history", "anchors": ["src/buffer.rs: NaiveBuffer::prime_phi"]}
{"id": "C09", "title": "primorial(n) is the product of the first n primes", "statement": "primorial(n) equals the product of the first n primes (given a valid upper bound for the n-th prime), with primorial(0) = 1.", "quantifier": "all n", "why_tests_cant": "unbounded family", "anchors": ["src/nt_funcs.rs: primorial", "src/buffer.rs: PrimeBufferExt::primorial"]}
{"id": "C10", "title": "is_prime64 never rejects a prime", "statement": "For every u64 n, with either table feature, if n is prime then is_prime64(n) is true.", "quantifier": "all 2^64 inputs, both features", "why_tests_cant": "2^64 inputs, including hash-selected bases that might be divisible by the input", "anchors": ["src/nt_funcs.rs: is_prime64, is_prime64_miller, is_prime32_miller", "src/tables.rs: MILLER_RABIN_BASE32, MILLER_RABIN_BASE64"]}
{"id": "C11", "title": "is_prime64 accepts only primes", "statement": "For every u64 n, is_prime64(n) = true implies n is prime. (Proved for every n below 2^20 with either table and for every n below 2^32 with the small table; above, acceptance implies that n is coprime to the wheel and passes the strong probable prime tests to the bases chosen for n.)", "quantifier": "all inputs", "why_tests_cant": "2^64 inputs", "anchors": ["src/nt_funcs.rs: is_prime64", "src/tables.rs"]}
{"id": "C12", "title": "is_prime on values up to 64 bits is a definite answer equal to is_prime64", "statement": "For every integer type and every n < 2^64, is_prime(n, config) is Yes or No (never Probable) independently of config and of randomness, is No for even n other than 2, and agrees with is_prime64(n).", "quantifier": "all n, configs, random draws, integer types", "why_tests_cant": "depends on config and randomness", "anchors": ["src/buffer.rs: PrimeBufferExt::is_prime", "src/nt_funcs.rs: is_prime"]}
{"id": "C13", "title": "is_prime never answers No for a prime", "statement": "For every prime n of any size, every configuration and every buffer, is_prime(n, config) is not No as long as no random witness is drawn equal to 0 (refuted without that condition: the witness 0 rejects a prime).", "quantifier": "all primes, configs, random draws", "why_tests_cant": "random witnesses; the failing draw has probability 2^-64", "anchors": ["src/buffer.rs: PrimeBufferExt::is_prime"]}
{"id": "C14", "title": "is_prime never answers Yes above 64 bits and the answer's kind depends only on the tests configured", "statement": "For n >= 2^64, is_prime never returns Yes; and No is returned exactly when n is even or one of the configured tests fails.", "quantifier": "all n, configs, draws", "why_tests_cant": "config space and randomness", "anchors": ["src/buffer.rs: PrimeBufferExt::is_prime"]}
{"id": "C15", "title": "Primality results combine as a Boolean algebra", "statement": "For all Primality values a, b: (a & b).probably() = a.probably() && b.probably(), (a | b).probably() = a.probably() || b.probably(); Yes is neutral and No absorbing for &, No neutral and Yes absorbing for |; probabilities stay within [0,1].", "quantifier": "all Primality values including all probabilities", "why_tests_cant": "continuum of probabilities", "anchors": ["src/traits.rs: Primality"]}
{"id": "C16", "title": "is_sprp is exactly the strong probable prime definition", "statement": "For every odd n >= 3 and every base a, n.is_sprp(a) is true iff, writing n-1 = d*2^s with d odd, a^d = 1 (mod n) or a^(d*2^r) = -1 (mod n) for some 0 <= r < s; so every odd prime passes for every base not divisible by it. n = 1 panics in debug builds.", "quantifier": "all odd n and bases", "why_tests_cant": "loop runs one step more than the definition; equality needs a 2-adic argument for all n", "anchors": ["src/primality.rs: PrimalityUtils::{is_sprp,test_sprp}"]}
{"id": "C17", "title": "test_sprp factor output is a proper divisor", "statement": "Whenever test_sprp(base) returns Right(f) then f divides n and 1 < f < n, for every odd n and base, hence n is composite.", "quantifier": "all odd n and bases", "why_tests_cant": "all inputs", "anchors": ["src/primality.rs: PrimalityUtils::test_sprp"]}
{"id": "C18", "title": "is_prp is the Fermat test", "statement": "For every n >= 2 and base a, n.is_prp(a) iff a^(n-1) = 1 (mod n); every prime passes for every base not divisible by it.", "quantifier": "all n, bases", "why_tests_cant": "all inputs", "anchors": ["src/primality.rs: PrimalityUtils::is_prp"]}
{"id": "C19", "title": "lucasm computes the Lucas sequences modulo m", "statement": "For all p, q (q of either sign), m >= 1 and n, lucasm(p,q,m,n) = (U_n(p,q) mod m, V_n(p,q) mod m) where U,V are the Lucas sequences.", "quantifier": "all parameters and indices", "why_tests_cant": "unbounded recursion over bits of n", "anchors": ["src/primality.rs: LucasUtils::lucasm"]}
{"id": "C20", "title": "Lucas parameter selection", "statement": "For odd n, the parameters chosen by Selfridge's method A (resp. by brute force) are either the failure marker or P=1, Q=(1-D)/4 with D the first of 5,-7,9,... (resp. the first P>=3 with D=P^2-4) whose Jacobi symbol mod n is -1; for every odd prime a parameter is always found.", "quantifier": "all odd n", "why_tests_cant": "search loop with no a-priori bound", "anchors": ["src/primality.rs: LucasUtils::{pq_selfridge,p_bruteforce}"]}
{"id": "C21", "title": "Lucas tests never reject a prime", "statement": "Every odd prime n passes is_lprp(None,None), is_slprp(None,None) and is_eslprp(None), and passes with any explicit parameters P,Q for which n does not divide Q (2QD for the strong tests).", "quantifier": "all odd primes, parameters", "why_tests_cant": "algebra in a quadratic extension for every prime", "anchors": ["src/primality.rs: PrimalityUtils::{is_lprp,is_slprp,is_eslprp}"]}
{"id": "C22", "title": "Lucas tests implement the textbook definitions", "statement": "is_lprp(P,Q) is exactly U_{n-(D/n)} = 0 mod n; is_eslprp is exactly the extra strong Lucas definition; is_slprp accepts exactly the strong Lucas probable primes.", "quantifier": "all odd n, parameters", "why_tests_cant": "off-by-one in the number of doublings changes the accepted set for rare n", "anchors": ["src/primality.rs: PrimalityUtils::{is_lprp,is_slprp,is_eslprp}"]}
{"id": "C23", "title": "Montgomery-accelerated integers give the same answers", "statement": "Running is_prp/is_sprp/is_lprp/is_slprp and pollard_rho on Mint/SmallMint-wrapped values gives the same result as on plain integers and never hits an unreachable!() branch, for every odd n >= 3. (Refuted for is_eslprp, which panics on wrapped values.)", "quantifier": "all odd n, parameters", "why_tests_cant": "mixed representation branches are only reached for particular inputs", "anchors": ["src/mint.rs: Mint", "src/primality.rs"]}
{"id": "C24", "title": "trial_division returns an exact partial factorization", "statement": "For every target >= 1, limit and ascending iterator over consecutive primes: the product of the returned prime powers times the residual is the target, the factors are exactly the primes not exceeding the limit that divide it with full multiplicity, and Ok(r) implies r = 1 or r is a prime.", "quantifier": "all targets, limits, prime iterators", "why_tests_cant": "all inputs", "anchors": ["src/factor.rs: trial_division"]}
{"id": "C25", "title": "pollard_rho only returns proper divisors", "statement": "For every target >= 2, start, offset and iteration budget, if pollard_rho returns a factor d then 1 < d < target and d divides target, and the iteration count does not exceed the budget.", "quantifier": "all inputs and budgets", "why_tests_cant": "pseudo-random walk", "anchors": ["src/factor.rs: pollard_rho"]}
{"id": "C26", "title": "one_line only returns proper divisors", "statement": "For every target >= 2 and multiplied target, if one_line returns d then 1 < d < target and d divides target. It never panics on arithmetic unless k*i*n exceeds (2^(w/2)-1)^2 (refuted there: debug overflow).", "quantifier": "all inputs", "why_tests_cant": "overflow window is tiny", "anchors": ["src/factor.rs: one_line"]}
{"id": "C27", "title": "squfof returns, never under/overflows and its factors are proper", "statement": "For every target, square-free multiplier k and budget, with k*target representable and not a perfect square: squfof returns (every backward walk reaches its symmetry point, within 2*k*target steps), no arithmetic operation of squfof under- or overflows, divisions are exact, and a returned factor is a proper divisor. (Refuted for k*target a perfect square: the returned value can be the target itself or a non-divisor.)", "quantifier": "all targets, multipliers, budgets", "why_tests_cant": "continued fraction state invariant", "anchors": ["src/factor.rs: squfof, SQUFOF_MULTIPLIERS"]}
{"id": "C28", "title": "factorize64 returns the prime factorization", "statement": "For every 1 <= n < 2^64 and every random choice, if factorize64(n) returns then the returned map has product n, strictly increasing keys and positive exponents, each key is accepted by the library's primality test, and a key different from n is prime when below the square of the table bound; so it is the unique prime factorization whenever the accepted keys are prime. In release builds it never panics. It always returns when what is left after removing the table primes is 1 or a prime. (Refuted: a debug build can panic on a one_line overflow depending on the random draws, and factorize64(0) panics in debug.)", "quantifier": "all n, random draws, budgets", "why_tests_cant": "randomised search", "anchors": ["src/nt_funcs.rs: factorize64, factorize64_advanced"]}
{"id": "C29", "title": "factorize128 returns the prime factorization", "statement": "For every 1 <= n < 2^128 and every random choice, if factorize128(n) returns then the product of the returned map is n, and every key is accepted by the library's primality test. From 2^64 on it does return the prime factorization, drawing nothing, whenever dividing n by the table primes leaves 1 or a prime, whatever composites the primality test may accept.", "quantifier": "all n, draws", "why_tests_cant": "randomised search", "anchors": ["src/nt_funcs.rs: factorize128, factorize128_advanced"]}
{"id": "C30", "title": "factors accounts for the whole target", "statement": "For every target >= 1 of any size, config, buffer and randomness: the product of returned prime powers times the product of returned cofactors equals the target; each returned key is accepted by is_prime or proven prime by trial division, and each cofactor is > 1. (Refuted: the documentation says the config is used from 2^64 on; below 2^128 it has no influence.)", "quantifier": "all targets, configs, buffers, draws", "why_tests_cant": "randomised", "anchors": ["src/buffer.rs: PrimeBufferExt::factors", "src/nt_funcs.rs: factors"]}
{"id": "C31", "title": "factorize multiplies back to the target", "statement": "For every target >= 1, if factorize(target) returns then the product of its prime powers is the target and it coincides with the unique prime factorization whenever every accepted key is prime. Below 2^128 factorize and factors give what factorize128 gives, at every integer type and buffer.", "quantifier": "all targets, draws", "why_tests_cant": "randomised", "anchors": ["src/buffer.rs: PrimeBufferExt::factorize", "src/nt_funcs.rs: factorize"]}
{"id": "C32", "title": "divisor returns a proper divisor, or trial-divides up to its limit", "statement": "If divisor(target, config) returns Some(d) then d is a proper divisor. (Refuted: the documented trial-division step never runs, so a target with a tiny factor within td_limit yields None when rho_trials = 0.)", "quantifier": "all targets, configs, buffers, draws", "why_tests_cant": "config dependent", "anchors": ["src/buffer.rs: PrimeBufferExt::divisor"]}
{"id": "C33", "title": "moebius is the Moebius function", "statement": "For every n >= 1, moebius(n) is 0 if a square > 1 divides n and otherwise (-1)^(number of prime divisors), whenever factorization of the residual returns its true prime factorization.", "quantifier": "all n", "why_tests_cant": "all n; bit-packed table", "anchors": ["src/nt_funcs.rs: moebius", "src/tables.rs: MOEBIUS_ODD"]}
{"id": "C34", "title": "moebius_factorized and is_square_free", "statement": "For every prime factorization map m, moebius_factorized(m) is the Moebius function of its product; is_square_free(n) iff no prime square divides n.", "quantifier": "all factorizations", "why_tests_cant": "unbounded", "anchors": ["src/nt_funcs.rs: moebius_factorized, is_square_free"]}
{"id": "C35", "title": "is_safe_prime", "statement": "For every n, is_safe_prime(n) is positive iff both n and (n-1)/2 are accepted as prime; a safe prime is never rejected.", "quantifier": "all n", "why_tests_cant": "all n", "anchors": ["src/nt_funcs.rs: is_safe_prime"]}
{"id": "C36", "title": "next_prime returns the least prime above its argument", "statement": "For every target of every integer type (default tables), if next_prime returns Some(p) then p > target is accepted by is_prime and no prime lies strictly between; None is returned iff no prime above target is representable. (Refuted without big-table: next_prime(252..=255) panics.)", "quantifier": "all targets, integer widths, features", "why_tests_cant": "wheel and table boundaries; width boundaries", "anchors": ["src/nt_funcs.rs: next_prime", "src/tables.rs: WHEEL_NEXT"]}
{"id": "C37", "title": "prev_prime returns the greatest prime below its argument", "statement": "For every target, prev_prime(target) is None iff target <= 2, otherwise Some(p) with p < target accepted by is_prime and no prime strictly between.", "quantifier": "all targets, integer widths, features", "why_tests_cant": "wheel and table boundaries", "anchors": ["src/nt_funcs.rs: prev_prime", "src/tables.rs: WHEEL_PREV"]}
{"id": "C38", "title": "gen_prime returns a prime within the bit size", "statement": "Documented: gen_prime(bits) returns a prime of at most `bits` bits. Proved: the result is accepted as prime and is the least prime >= the odd draw. (Refuted for the bit limit, e.g. 8 bits can yield 257.)", "quantifier": "all bit sizes and random draws", "why_tests_cant": "failing draws are rare", "anchors": ["src/rand.rs: RandPrime::gen_prime"]}
{"id": "C39", "title": "gen_prime_exact returns a prime of exactly the bit size", "statement": "Documented: gen_prime_exact(bits) has exactly `bits` bits. Proved: prime and at least 2^(bits-1); exact when bits is the full width of the type. (Refuted below the full width, e.g. 8 bits in u16.)", "quantifier": "all bit sizes and draws", "why_tests_cant": "failing draws are rare", "anchors": ["src/rand.rs: RandPrime::gen_prime_exact"]}
{"id": "C40", "title": "gen_safe_prime returns safe primes", "statement": "For all draws, values returned by gen_safe_prime and gen_safe_prime_exact pass is_safe_prime. (Refuted: bit limit of gen_safe_prime.)", "quantifier": "all bit sizes and draws", "why_tests_cant": "randomised", "anchors": ["src/rand.rs: RandPrime::{gen_safe_prime,gen_safe_prime_exact}"]}
{"id": "C41", "title": "sqrt_exact on machine integers", "statement": "For every positive machine integer n, sqrt_exact(n) = Some(r) iff r*r = n (r >= 0), None iff n is no square. (Refuted for 0: debug panic / release None.)", "quantifier": "all n of all widths", "why_tests_cant": "bit tricks over all inputs", "anchors": ["src/integer.rs: ExactRoots for primitive integers"]}
{"id": "C42", "title": "sqrt_exact / cbrt_exact on big integers", "statement": "For every BigUint n, sqrt_exact(n) = Some(r) iff r^2 = n and cbrt_exact(n) = Some(r) iff r^3 = n; the residue-table filters never reject a true power. Same for BigInt with sign.", "quantifier": "all big integers, both features", "why_tests_cant": "residue masks could wrongly reject rare powers", "anchors": ["src/integer.rs: ExactRoots for BigUint, BigInt", "src/tables.rs: QUAD_*, CUBIC_*"]}
{"id": "C43", "title": "nth_root_exact / is_nth_power / is_square / is_cubic", "statement": "nth_root_exact(k) = Some(r) iff r^k = n for k >= 1; the is_* predicates agree with existence of a root.", "quantifier": "all n, k", "why_tests_cant": "unbounded", "anchors": ["src/traits.rs: ExactRoots"]}
{"id": "C44", "title": "BitTest operations", "statement": "bits(n) is the length of the binary representation, bit(n,i) is the i-th binary digit for every in-range i, trailing_zeros(n) is the largest power of two dividing n, on machine and big integers.", "quantifier": "all n, i", "why_tests_cant": "unbounded", "anchors": ["src/traits.rs: BitTest", "src/integer.rs"]}
{"id": "C45", "title": "prime_pi_bounds and nth_prime_bounds are exact in the table range", "statement": "For every x up to the last table prime prime_pi_bounds(x) = (pi(x), pi(x)); for every n up to the table length nth_prime_bounds(n) = (p_n, p_n) when it fits the type.", "quantifier": "all table-range inputs, both features", "why_tests_cant": "boundary between table and estimate", "anchors": ["src/nt_funcs.rs: prime_pi_bounds, nth_prime_bounds"]}
{"id": "C46", "title": "nth_prime_est terminates inside its bracket", "statement": "For every bracket lo <= hi and every behaviour of the prime counting estimate the bisection terminates and returns a value in [lo, hi].", "quantifier": "all brackets and estimates", "why_tests_cant": "loop exit uses lo != hi-1; non-monotone estimates", "anchors": ["src/nt_funcs.rs: nth_prime_est"]}
{"id": "C47", "title": "Precomputed-inverse divisibility is exact", "statement": "For every table prime p other than 2 and every u64 n, the multiplication by the stored inverse followed by comparison with the stored limit succeeds iff p divides n and yields n/p.", "quantifier": "1023 primes x 2^64 inputs", "why_tests_cant": "2^64 inputs per table row", "anchors": ["src/tables.rs: SMALL_PRIMES_INV", "src/nt_funcs.rs: factorize64"]}
{"id": "C48", "title": "Table lookups never go out of bounds", "statement": "For every u64 n the hashed witness lookup and the wheel lookup stay inside their tables; the wheel test rejects exactly the numbers sharing a factor with the wheel size.", "quantifier": "all inputs", "why_tests_cant": "hash of every input", "anchors": ["src/nt_funcs.rs: is_prime64, is_prime64_miller", "src/tables.rs"]}
{"id": "C49", "title": "Preset configurations", "statement": "The default, strict and BPSW configurations run the documented tests: BPSW = one base-2 strong test and a strong Lucas test with no random base; strict = BPSW plus one random base; every prime passes BPSW whatever the random source.", "quantifier": "all primes, draws", "why_tests_cant": "all primes", "anchors": ["src/traits.rs: PrimalityTestConfig"]}
{"id": "C50", "title": "nth_prime_bounds contains the n-th prime (n <= 788060)", "statement": "With IEEE 754 binary64 arithmetic and a logarithm accurate to a relative error of 2^-50, for every n from 1 to 788060 (all primes below 12000000) the interval returned by nth_prime_bounds contains the n-th prime, at every integer type of at least 32 bits; at smaller types whatever interval is returned contains it.", "quantifier": "all n <= 788060, types, feature sets, logarithm implementations within the tolerance", "why_tests_cant": "a test fixes one platform's ln; rounding near the truth is a matter of every n", "anchors": ["src/nt_funcs.rs: nth_prime_bounds"]}
{"id": "C51", "title": "prime_pi_bounds contains the prime count (x <= 12000000)", "statement": "Under the same assumptions, for every x up to 12000000 the interval returned by prime_pi_bounds contains the number of primes up to x.", "quantifier": "all x <= 12000000, types, feature sets, logarithm implementations within the tolerance", "why_tests_cant": "a test fixes one platform's ln", "anchors": ["src/nt_funcs.rs: prime_pi_bounds"]}
{"id": "C52", "title": "Rounding in the bounds functions", "statement": "For every target below 2^128 the lower bound returned by prime_pi_bounds and nth_prime_bounds is at most the upper one, both are the truncations of numbers within a relative 2^-38 of the published real formulas, prime_pi_bounds never panics and, beyond the table, nth_prime_bounds returns None exactly when the upper bound does not fit; below 2^38 a valid published lower bound yields a valid integer lower bound, and a valid upper bound one that is at most 1 too small.", "quantifier": "all targets below 2^128, types, logarithm implementations within the tolerance", "why_tests_cant": "rounding errors at 2^128 inputs, the cross-over points between the formulas", "anchors": ["src/nt_funcs.rs: prime_pi_bounds, nth_prime_bounds"]}
{"id": "C53", "title": "Bounds for targets beyond the f64 range", "statement": "For every BigUint target of at least 2^1024, prime_pi_bounds panics and nth_prime_bounds returns None.", "quantifier": "all n >= 2^1024", "why_tests_cant": "unbounded inputs", "anchors": ["src/nt_funcs.rs: prime_pi_bounds, nth_prime_bounds"]}
{"id": "C54", "title": "Counting functions with the real estimates", "statement": "With the modelled binary64 formulas (including Gram's series and its table) in place of an oracle, for every accurate ln and exp: nth_prime returns the n-th prime for every n up to 79667, prime_pi is exact for every limit below 1015810^2 (more than 10^12), a value of prime_phi is right for a up to 79667, nprimes and primorial are right for n up to 788060; whatever the buffer was used for before. Every entry of the zeta table is a binary64 number within half a unit in the last place of the decimal literal in the source.", "quantifier": "all n, limits, histories, ln and exp implementations within the tolerance", "why_tests_cant": "10^12 limits times histories", "anchors": ["src/buffer.rs: nth_prime, prime_pi, prime_phi, nprimes, primorial", "src/nt_funcs.rs: nth_prime_est, prime_pi_est"]}
{"id": "C55", "title": "The probability reported by is_prime", "statement": "For every target, buffer, number type, configuration with trial counts below 2^31 and source of randomness: a Probable(p) returned by is_prime carries a finite f32 p in [0,1]; k strong tests contribute the factor 1 - 4^-k exactly for k <= 12 and 1.0 from k = 13 on; the presets report fixed values (945/1024 by default). (Refuted for trial counts of 2^31 and more: `as i32` makes them negative, e.g. 2^32-1 trials report the probability -3.)", "quantifier": "all targets, configurations, buffers, draws", "why_tests_cant": "the trial count ranges over 2^64 values; the failing ones look absurd and are never tried", "anchors": ["src/buffer.rs: PrimeBufferExt::is_prime", "src/traits.rs: Primality"]}
{"id": "C56", "title": "Every operation of Mint is exact in every mix of its two forms", "statement": "For all operands in plain or Montgomery form with one modulus: + - * give the exact residue when one operand is a residue (operands in order) and the plain result otherwise; negm, dblm, sqm, powm, %, addm, subm, mulm give exact residues for every odd modulus and panic for even ones; equality decides identity and panics exactly on mixed forms or moduli; the order, gcd, parity and Jacobi symbol look at the value; all remaining operations agree with the integer type on plain operands and panic on residues; + - * == and the modular binary operations on residues of different moduli panic; the order, and the other operations with a plain modulus that is not the one of the residue, panic in debug builds and use the modulus of the residue in release builds; addm, subm and mulm with a plain second operand or a residue as modulus, and invm, always panic.", "quantifier": "all operands, forms, moduli, exponents", "why_tests_cant": "the library's own tests only reach the few mixes its algorithms produce", "anchors": ["src/mint.rs: Mint"]}
{"id": "C57", "title": "divisors and divisor_sigma list and sum the divisors", "statement": "For every u64 n >= 1 whose factorization by factorize64 returns: divisors(n) never overflows or panics, every number it returns divides n, and if the factors found are prime it lists every divisor exactly once; divisor_sigma(n,z) is then the sum of the z-th powers of the divisors when that fits in 64 bits, otherwise debug builds panic and release builds return it modulo 2^64. Unconditional for n < 2^20. (Refuted for n = 0: debug builds panic, release builds return 130 numbers with repetitions.)", "quantifier": "all n, z, draws, build profiles", "why_tests_cant": "the claim is about all 64-bit targets; the example program only prints one value", "anchors": ["examples/divisor_sigma.rs: divisors", "examples/divisor_sigma.rs: divisor_sigma"]}
{"id": "C58", "title": "prime_omega and prime_Omega count prime factors", "statement": "For every u64 n >= 1 whose factorization by factorize64 returns prime factors, prime_omega(n) is the number of distinct primes dividing n and prime_Omega(n) the length of every list of primes with product n. Unconditional for n < 2^20. (Refuted for n = 0: release builds answer 2 and 65.)", "quantifier": "all n, draws, build profiles", "why_tests_cant": "no finite set of targets covers all factorization shapes", "anchors": ["examples/prime_omega.rs: prime_omega", "examples/prime_omega.rs: prime_Omega"]}
{"id": "C59", "title": "list_lucky_numbers returns exactly the lucky numbers", "statement": "For every limit other than 6 and 7, list_lucky_numbers(limit) is the increasing list of exactly the lucky numbers below limit, and list_lucky_primes(limit) lists all lucky primes below limit and nothing else below 2^20. (Refuted for the limits 6 and 7: the sieve stops one round too early and returns [1,3,5], but 5 is not lucky.)", "quantifier": "all limits, build profiles", "why_tests_cant": "the failing limits are two isolated small ones; the example only runs a large limit", "anchors": ["examples/find_lucky_primes.rs: list_lucky_numbers", "examples/find_lucky_primes.rs: list_lucky_primes"]}
{"id": "C60", "title": "list_mersenne finds exactly the Mersenne primes below 2^128", "statement": "For all random draws other than 0, a list returned by list_mersenne consists of exactly the p < 128 for which p and 2^p - 1 are prime, and it never panics; with 39 distinct draws above 3 it returns. (Refuted for a draw of 0, which can hide a Mersenne prime.)", "quantifier": "all draws, build profiles, feature sets", "why_tests_cant": "the random witnesses range over 2^64 values each; a zero draw never shows up in a test", "anchors": ["examples/find_mersenne_primes.rs: list_mersenne", "src/buffer.rs: PrimeBufferExt::is_prime"]}
{"id": "C61", "title": "Below 2^20 every answer is right with no proviso", "statement": "For every n < 2^20, integer type, configuration, buffer and source of randomness: is_prime and is_safe_prime answer exactly whether n is a (safe) prime; next_prime and prev_prime return exactly the neighbouring primes (for u8 and u16 on the whole type, with None exactly when there is none); below the square of the table limit too factorize, factors and factorize128 return the prime factorization, and moebius and is_square_free are exact; gen_prime*, gen_safe_prime* at u8 and u16 return only (safe) primes.", "quantifier": "all n < 2^20, types, configurations, buffers, draws, build profiles", "why_tests_cant": "configurations, buffers and draws cannot be enumerated; the functions are tested on samples", "anchors": ["src/nt_funcs.rs: next_prime", "src/nt_funcs.rs: prev_prime", "src/nt_funcs.rs: moebius", "src/nt_funcs.rs: factorize", "src/rand.rs: gen_prime"]}
{"id": "C62", "title": "prime_pi_est with big-table is Riemann's R function", "statement": "With IEEE 754 binary64 arithmetic and ln, exp accurate to a relative error of 2^-50: for every n from 8162 to 2^64-1, prime_pi_est(n) with the big-table feature returns a value within 3 + R(n)/2^30 of R(n) = 1 + sum (ln n)^k / (k k! zeta(k+1)), at every integer type holding n; for every n below 2^128 it returns a value between 0 and n that exceeds R(n) by at most 3 + R(n)/2^31. (Refuted as an estimate of R for 2^127 <= n < 2^128: it falls short of R(n) by more than R(n)/200, because the series is cut after 99 terms.)", "quantifier": "all n, integer types, ln and exp implementations within the tolerance", "why_tests_cant": "the value of R is a limit; the loss at the top of u128 shows in no 64-bit test", "anchors": ["src/nt_funcs.rs: prime_pi_est", "src/tables.rs: ZETA_LOG_TABLE"]}
{"id": "C63", "title": "nth_prime_est returns a crossing point of the estimate, where its bisection does not overflow", "statement": "For every bracket [lo,hi] with 2*hi in the type, nth_prime_est returns r in the bracket with prime_pi_est(r) = n, or r at or above which the estimate crosses n (or the bracket ends). With the modelled formulas it returns for every n up to 3300 (u16), 10^8 (u32), 2*10^17 (u64), 1.9*10^36 (u128). (Refuted as a total function: for 4500..6200 at u16, 1.25*10^8..2*10^8 at u32, 2.5*10^17..4.2*10^17 at u64 and 2.3*10^36..3.8*10^36 at u128 the sum lo + hi overflows; debug builds panic and release builds never return. nth_prime on u64 inherits this.)", "quantifier": "all n in the ranges, feature sets, ln and exp implementations within the tolerance", "why_tests_cant": "the library only tests small n; a hang is not an observable test result", "anchors": ["src/nt_funcs.rs: nth_prime_est", "src/buffer.rs: nth_prime"]}
{"id": "C64", "title": "The strong probable prime test errs for at most a quarter of the bases", "statement": "For every odd composite n at most (n-1)/4 of the bases 1..n-1 make is_sprp accept (attained at 9); a prime is accepted for all of them. Hence with k random trials at most ((n-1)/4)^k of the sequences of k 64-bit draws let is_prime accept a composite n above 2^64. (Refuted for neighbours of this claim: is_prp accepts 561 for 320 of 560 bases; the probability is_prime reports for its fixed bases bounds nothing: the composite 3317044064679887385961981 with 13 trials is reported as Probable(1.0).)", "quantifier": "all odd composite n, integer types, profiles, feature sets; all configurations and sets of draws", "why_tests_cant": "a statement about all bases of all composites", "anchors": ["src/primality.rs: is_sprp, is_prp", "src/buffer.rs: is_prime"]}
{"id": "C65", "title": "The documented example holds whatever is drawn", "statement": "In the example of the crate documentation: is_prime(2^89-1, None) is probably prime for all draws not divisible by 2^64 and is_prime(2^89-1, bpsw) for all draws; is_prime(2^83-1, None) is No for all draws; factorize(2^83-1) and factors(2^83-1, config) return {167:1, 57912614113275649087721:1} and no remainder for every config, drawing nothing.", "quantifier": "all draws, profiles, feature sets, configs, buffers", "why_tests_cant": "the doc test runs once with one random state", "anchors": ["src/lib.rs: crate documentation", "src/buffer.rs: is_prime, factors, factorize"]}
{"id": "C66", "title": "The fixed assertions of the crate's unit tests hold for every profile, feature set and draw", "statement": "What the unit tests assert about fixed numbers holds in the model for both profiles, both feature sets and whatever is drawn. This covers is_prime64, is_safe_prime, moebius, prev_prime, next_prime, pollard_rho, squfof, one_line, the primes of NaiveBuffer, is_prime on the listed numbers up to 128 bits, the six large composites and seven of the twelve large primes (the first two, 2^251-9, 2^255-19, 2^382-105, 2^414-17, 2^521-1), exact roots, the Fermat and strong tests, every point of prime_pi_test and nth_prime_test (up to 10^8 and the 10^7-th prime), and all of prime_pi_bounds_test and nth_prime_bounds_test (every argument up to 100000 and the powers of ten: the stated value and the estimate lie between the bounds, for every accurate mathematical library). For factorize64 (4095, 123456789, 11111111111111111), the powers of 8167 and factors, whatever is returned is the expected factorization; 4095 and both numbers of factorize128_test are factored without a draw. The default configuration accepts the listed primes unless a draw is 0 modulo 2^64. (Not included: the other five large primes of is_prime_test, of 210 to 309 digits; C13 accepts them if they are primes.)", "quantifier": "all profiles, feature sets, draws, fuel above the stated bounds", "why_tests_cant": "the tests run in one profile with one feature set and one random state, and leave the factors to rerun", "anchors": ["src/nt_funcs.rs: tests", "src/buffer.rs: tests", "src/factor.rs: tests", "src/integer.rs: tests", "src/primality.rs: tests"]}
{"id": "C67", "title": "Which draws break the randomized assertions of the unit tests", "statement": "For each assertion the unit tests make about random numbers, it is proved for all draws or the draws breaking it are given. It holds for: pollard_rho over MInt and over the type itself agreeing for odd targets, products x*y < 2^20 with x,y >= 2 being composite, sqrt/cbrt_exact agreeing with nth_root for x > 0 and on squares and cubes, lucasm against the listed sequence and lucas_naive for moduli from 3 on, is_prime against is_prime64, gen_prime and gen_safe_prime. Refuted with witnesses: products x*y of random 32-bit numbers are composite (x=1); a random prime is not divisible by a table prime; factorize64 of a random u64 (0 panics in debug builds); sqrt_exact of a random u32 (0 panics or gives None); x*y with x<>y is no square (1*4); lucasm modulo 0 panics and modulo 1 and 2 differs from the naive sequence; gen_prime(n) has at most n bits in a type wider than n.", "quantifier": "all values the random number generator can deliver", "why_tests_cant": "the breaking draws are rare, so the tests pass", "anchors": ["src/nt_funcs.rs: tests", "src/factor.rs: tests", "src/integer.rs: tests", "src/primality.rs: tests", "src/rand.rs: tests"]}
{"id": "C68", "title": "The Lucas tests are exact below 10000 but for the known pseudoprimes", "statement": "For odd 3 <= n < 10001, is_lprp(None, None) accepts exactly the primes and 323, 377, 1159, 1829, 3827, 5459, 5777, 9071, 9179; is_slprp(None, None) exactly the primes and 5459, 5777; is_eslprp(None) exactly the primes and 989, 3239, 5777. With Q = -1 and P = 1..5 (P = 1..3 for the strong test) the first composite accepted with Jacobi(P^2+4 | n) = -1 is the one the unit test names.", "quantifier": "all odd n < 10001, profiles, feature sets", "why_tests_cant": "the test samples the numbers at random and skips those passing two strong tests", "anchors": ["src/primality.rs: is_lprp, is_slprp, is_eslprp, tests"]}
{"id": "C69", "title": "The probable prime tests form a hierarchy", "statement": "A number accepted by is_sprp to a base is accepted by is_prp to that base. With parameters whose discriminant is coprime to n, a number accepted by is_slprp is accepted by is_lprp, and one accepted by is_eslprp(P) is accepted by is_slprp(P, 1). With automatic parameters is_slprp accepts no odd number that is_lprp rejects. None of these can be reversed (341; 323; 35).", "quantifier": "all odd n, bases, parameters, types, profiles, feature sets", "why_tests_cant": "a statement about all numbers", "anchors": ["src/primality.rs: is_prp, is_sprp, is_lprp, is_slprp, is_eslprp"]}
{"id": "C70", "title": "The search for divisors is never hopeless: some draws always finish the factorization", "statement": "For every n below 2^64 there are random draws for which factorize64 returns without panic, in both profiles and feature sets, consuming exactly those draws; the same for factorize128, factorize, moebius and is_square_free below 2^128 (given enough steps for the Lucas parameter search). The reason: pollard_rho with start 0 and a proper divisor d of the target as offset returns d in its first pass, so every third round of the method loop whose iteration limit has not overflowed succeeds for the draws 0 and d.", "quantifier": "for all n in 1..2^64 (2^128), both profiles, both feature sets, all integer types; for all rounds with ratio < 2^42 and all draws congruent to 0 and d", "why_tests_cant": "The tests factor a few numbers with whatever thread_rng yields; they cannot show that no number makes the loop run forever whatever is drawn.", "anchors": ["src/factor.rs:72-143", "src/nt_funcs.rs:148-319", "src/nt_funcs.rs:323-497", "src/buffer.rs:117-196", "src/nt_funcs.rs:577-636"]}
{"id": "C71", "title": "gen_prime returns each prime in proportion to the gap below it", "statement": "For u8..u64 let q < p be consecutive primes (nothing between them accepted by is_prime64), q >= 3, p < 2^w. One drawn w-bit number x makes gen_prime(b) return p exactly when (q+1) 2^(w-b) <= x < (p+1) 2^(w-b), and makes gen_prime_exact(b) return p exactly when the same holds for x with its top bit set. Hence for p < 2^b exactly (p-q) 2^(w-b) of the 2^w draws give p (twice as many with gen_prime_exact, for q >= 2^(b-1)); 2 and 3 get 2^(w-b+1) each. The distribution is therefore not uniform: of the 256 draws of an 8-bit prime, 4 give 113 and 14 give 127.", "quantifier": "for all w in {8,16,32,64}, 1 <= b <= w, all draws, both profiles and feature sets (without big-table except p = 257)", "why_tests_cant": "The tests check the size of a few generated primes; a distribution over 2^64 draws cannot be sampled to exact shares.", "anchors": ["src/rand.rs:8-45"]}
{"id": "C72", "title": "How long pollard_rho runs and when it finds a factor", "statement": "Let x_k be the walk x -> x^2 + offset modulo n from start < n. If pollard_rho gives up before max_iter, the walk has met itself modulo n (so the exit after a second zero accumulator is never taken). If the walk modulo some divisor d > 1 of n has period l from step m on, the run is over after at most k = 5 max(m+128, l) + l passes; if moreover x_k is new modulo n, it returns a proper divisor. Every run ends within 6n + 640 passes whatever max_iter. A factor can still be missed within a batch: target 15, start 0, offset 4. A success with max_iter iterations is the same with more, and a success after i iterations is found with every max_iter from i on.", "quantifier": "for all n >= 2, start < n, offset, max_iter <= 2^62, all integer types, both profiles and feature sets", "why_tests_cant": "The tests run the method on a handful of numbers; batching, backtracking and the doubling of the hare interact in ways single runs do not show.", "anchors": ["src/factor.rs:72-143"]}
{"id": "C73", "title": "one_line is complete, and small cofactors are split whatever is drawn", "statement": "one_line(n, K, max_iter) returns the divisor of the first pass i for which the least square above i K exceeds i K by a square t^2 and gcd(n, s - t) is proper; it returns None only if there is no such pass below max_iter (with i K representable). A success with max_iter passes is the same with more, and one in pass i is found with every max_iter above i. If n = a b is odd, 1 < a < b, and K = 4 c n with c < a and a coprime to c b, then such a pass exists up to max(a/2, c b/a + 1). Consequently factorize64, factorize128 and factorize return, in both profiles and for every sequence of random draws, whenever n is a product of table primes and a cofactor below 2^37 (2^32 without big-table) - in particular for every n below that limit.", "quantifier": "for all n, K, max_iter, integer types; for the factorizations all draws (7680 suffice), both profiles and feature sets", "why_tests_cant": "The tests factor a few numbers with a few draws; that no draw sequence can make the loop go on or panic is a statement about infinitely many runs.", "anchors": ["src/factor.rs:284-316", "src/nt_funcs.rs:148-320"]}
{"id": "C74", "title": "Bertrand's postulate for next_prime, prev_prime and gen_prime", "statement": "For every n >= 1 there is a prime p with n < p <= 2n. Hence next_prime(n), when it returns and 2n is representable, returns Some(p) with p <= 2n, and it does return for n < 2^63 and, with configurations that use no random witnesses, for n of any size; prev_prime(n) for n >= 3 returns Some(p) with n < 2p. gen_prime(b) and gen_prime_exact(b) return numbers below 2^(b+1); a draw whose shaped candidate lies in the lower half of the type is answered without a second draw, and gen_prime_exact(b) can produce a prime of exactly b bits for every b from 2 to the width of the type.", "quantifier": "for all n, types, tables, profiles, configurations and draw sequences in the ranges given by each theorem", "why_tests_cant": "A test can look at a few prime gaps; that no gap anywhere exceeds its lower end needs Chebyshev's argument on central binomial coefficients.", "anchors": ["src/nt_funcs.rs:820-958", "src/rand.rs:8-202"]}
{"id": "C75", "title": "With the small table every 32 bit answer is right", "statement": "An odd number 62 <= n < 2^32 not divisible by 3 or 5 is prime exactly if it is a strong probable prime to the bases 2, 7 and 61. Hence, without the big-table feature, for every n < 2^32: is_prime answers Yes exactly for primes and No exactly for composites, whatever the type, the configuration and the buffer; is_safe_prime is exact; next_prime on u8, u16 and u32 returns the least prime above n (n not in 252..255, see C36) and None exactly if the type holds none; prev_prime returns the greatest prime below n; factorize returns the prime factorization of n whatever the random draws, provided 7680 of them are available; moebius is the Moebius function; gen_prime, gen_prime_exact, gen_safe_prime and gen_safe_prime_exact return only primes and safe primes; the example functions divisors, divisor_sigma, prime_omega and prime_Omega are exact; the share of the draws that leads gen_prime to a prime p is the one of C71.", "quantifier": "for all n < 2^32, types, profiles, configurations, buffers and draw sequences in the ranges given by each theorem, without the big-table feature", "why_tests_cant": "There are 2^32 inputs and, for factorize, a draw sequence for each; a test can only sample both.", "anchors": ["src/nt_funcs.rs:42-146", "src/nt_funcs.rs:148-361", "src/nt_funcs.rs:577-617", "src/nt_funcs.rs:820-958", "src/rand.rs:8-202", "src/tables.rs"]}
{"id": "C76", "title": "nth_prime and prime_pi over almost the whole 64 bit range with the small table", "statement": "Without the big-table feature, with the modelled binary64 formulas and for every accurate ln and exp: nth_prime returns the n-th prime for every n from 1 to 203236859, prime_pi returns the number of primes up to the limit for every limit below 4294000001^2 (99.95 % of the values of u64), a value of prime_phi(x, a) is right for a up to 203236859, and after any history of buffer calls and such calls the buffer holds exactly the primes up to its bound.", "quantifier": "for all n, limits, histories, profiles, and all ln and exp within a relative error of 2^-50, without the big-table feature", "why_tests_cant": "The tests stop at 10^8; there are 1.8 * 10^19 limits and every history of the buffer.", "anchors": ["src/buffer.rs:385-470", "src/nt_funcs.rs:725-1030", "src/nt_funcs.rs:59-133"]}
{"id": "C77", "title": "What squfof finds", "statement": "For every target, every non-square multiple N of it and every number of passes, squfof(target, N, max_iter) walks through the complete quotients (P + sqrt N)/Q of the continued fraction of sqrt N and returns (Some(d), i) exactly if i < max_iter is the first odd pass at which Q is a square r^2 and the walk back from the form with r turns at a u with d = gcd(target, u) a proper divisor; it returns (None, max_iter) exactly if there is no such pass. The result does not depend on the number type, the profile or the table, and more passes never lose a factor.", "quantifier": "for all targets, multiples, types, profiles, tables and numbers of passes", "why_tests_cant": "The tests try 31 numbers with five multipliers and only ask for some factor; the claim fixes the pass and the divisor for every input.", "anchors": ["src/factor.rs:157-225"]}
{"id": "C78", "title": "prime_pi_bounds contains the prime count for every 64-bit number", "statement": "For every x below 2^64 the interval returned by prime_pi_bounds contains the number of primes up to x. (False: at x = 2953652287, the first argument of the branch citing Theorem 6.9 of [1], the upper end is 142325756 while there are 142325757 primes up to x, at every type that holds x, with either table and for every accurate logarithm. The number before is inside its bounds.)", "quantifier": "for all types, feature sets and logarithm implementations within the tolerance", "why_tests_cant": "The tests compare x up to 100000 and powers of ten; the failure is a single argument near 3*10^9.", "anchors": ["src/nt_funcs.rs:646-706"]}
{"id": "C79", "title": "prime_pi_est lies between the bounds of prime_pi_bounds", "statement": "For every x below 2^64, at every integer type that holds x, with either table, in both profiles and for every logarithm and exponential function accurate to the stated tolerance, prime_pi_bounds returns an interval, prime_pi_est returns a value, and the value lies in the interval. (The condition on x matters: for x from 2^127 to 2^128 - 1 with the big table, where the series is cut after 100 terms, the estimate is below the lower bound.)", "quantifier": "for all x below 2^64, types, tables, profiles, accurate mathematical libraries", "why_tests_cant": "prime_pi_bounds_test checks this up to 100000 and at powers of ten up to 10^17", "anchors": ["src/nt_funcs.rs:646-706", "src/nt_funcs.rs:960-1010"]}
{"id": "C80", "title": "The search for a divisor ends within 189 passes or, in release builds, never", "statement": "In factorize64 and factorize128 the iteration budget of the three methods doubles every third pass. For every non-square target of at least 32 coprime to 3*5*7*11*13*17*19, in both profiles and whatever is drawn: if the search finds a divisor at all it does so within its first 189 passes. In a debug build it always ends, with a proper divisor or a panic (the overflow of max_iter_ratio at the latest), so factorize64 returns or panics for every 1 <= n < 2^64, and factorize128 for every 1 <= n below about 2^122 (the trials of its Lucas test are bounded by sqrt n); factorize, at every type, then gives a factorization into accepted numbers or panics. In a release build, once the budget has wrapped around to 0, it runs forever, never panicking and never returning.", "quantifier": "for all targets of 64 or 128 bits without small prime factors and not square, all random draws, both feature sets; both profiles as stated", "why_tests_cant": "189 unsuccessful passes take more than 2^64 iterations; no test reaches the overflow", "anchors": ["src/nt_funcs.rs:260-314", "src/nt_funcs.rs:421-475", "src/nt_funcs.rs:148-236"]}
{"id": "C81", "title": "The last prime of each machine type", "statement": "The last primes below 2^8, 2^16, 2^32, 2^64 and 2^128 are 251, 65521, 4294967291, 2^64-59 and 2^128-159. For u8, u16, u32 and u64 next_prime(n) answers None exactly when n is at least the last prime of the type (with the small table and n not in 252..=255, see C36), and prev_prime of any larger number answers the last prime. For u128 every answer obeys the same rule, whatever nonzero random bases are drawn, provided the configuration asks for at least one fixed base, as the default and the presets do.", "quantifier": "for all numbers of the type, configurations, random draws, both feature sets and both profiles", "why_tests_cant": "the only test at the end of a type is next_prime of 251u8; the claim covers all numbers of all types and all draws", "anchors": ["src/nt_funcs.rs:820-888", "src/nt_funcs.rs:893-958"]}
{"id": "C82", "title": "What the profiling example writes to its file", "statement": "examples/profile_factorization.rs: profile_n_min returns for every n in release builds and below 2^94 in debug builds (from (2^64-1)^2 on debug builds panic). It reports six values; the iterations are at most 2^24, a time is a reading of the clock or usize::MAX, a success replaces the best pair of iterations and time exactly if it is smaller in lexicographic order, and each of the three iteration counts is the least over all runs of its method with the full 2^24 iterations, although later runs are given fewer (for squfof: unless a product with a multiplier is a square). The column time_one_line is the time of squfof, so the claim that it is the time of one_line is refuted. profile_n reports fifteen values of at most 2^20. If no draw is 0 modulo 2^64, the pair drawn for b bits consists of accepted numbers whose product lies in [2^(b-2), 2^(b+1)); that it has the printed b bits is refuted in both directions. For b = 27 the two primes always differ, so the file has at least one line and the access stats[0] never panics; every line is a product of two different accepted numbers with the columns of the header.", "quantifier": "for all targets, random draws, clock readings, both feature sets and both profiles", "why_tests_cant": "the example is never run by a test, its runs depend on randomness and on the clock, and an empty result list would need 400 coincidences", "anchors": ["examples/profile_factorization.rs:10-49", "examples/profile_factorization.rs:52-101", "examples/profile_factorization.rs:104-147"]}
