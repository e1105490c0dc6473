{"id": "C01", "title": "blocks/bytes give the least sufficient number of blocks", "statement": "NTL::blocks(bits, k) with k > 0 and bits + k - 1 < 2^64 returns the least n with n*k >= bits; NTL::bytes(bits) is the case k = 8; NTL::bytes(z) is the least n with |z| < 256^n. With k = 0 the call divides by zero; when bits + k - 1 wraps, the result is not sufficient (blocks(2^64-1, 8) = 0).", "quantifier": "all 64-bit bits and block sizes, all integers z", "why_tests_cant": "the claim is about minimality over the whole 64-bit range and fails only next to the wrap-around", "anchors": ["src/libeopsi/ntlmiss.cpp: NTL::blocks, NTL::bytes"]}
{"id": "C02", "title": "log2 is the floor of the base-2 logarithm", "statement": "For every z >= 1, NTL::log2(z) returns l with 2^l <= z < 2^(l+1), and it terminates; for z <= 1 (including negatives) it returns 0.", "quantifier": "all integers z, unbounded size", "why_tests_cant": "a loop over an unbounded integer; tests see finitely many z", "anchors": ["src/libeopsi/ntlmiss.cpp: NTL::log2"]}
{"id": "C03", "title": "zeroPad is undone by the shift used when the intersection is read back", "statement": "For every non-zero z and every pad size k < 2^63, zeroPad(z,k) >> k = z and countLeadingZeros(zeroPad(z,k)) >= k, so a padded non-zero element passes the pad filter and is recovered exactly; zeroPad(.,k) is injective.", "quantifier": "all non-zero integers z and all pad sizes k below 2^63", "why_tests_cant": "round trip over unbounded integers", "anchors": ["src/libeopsi/ntlmiss.cpp: NTL::zeroPad, NTL::countLeadingZeros", "src/libeopsi/zzppoly.cpp: ZZpPolynomials::findIntersection"]}
{"id": "C04", "title": "Zero fails the pad filter", "statement": "countLeadingZeros(0) is 0, so the padded form of the element 0 is accepted by the pad filter only when the pad size is 0: for every pad size k > 0 the element 0 is rejected although it was padded with k zeros.", "quantifier": "all pad sizes k > 0", "why_tests_cant": "a unit test with random non-zero data never exercises it; the claim is for every k", "anchors": ["src/libeopsi/ntlmiss.cpp: NTL::countLeadingZeros", "src/libeopsi/zzppoly.cpp: ZZpPolynomials::findIntersection"]}
{"id": "C05", "title": "zeroPadTo pads a number to exactly padsize-1 bits", "statement": "For z <> 0 with NumBits(z) < padsize < 2^32, zeroPadTo(z, padsize) is z times a power of two and has exactly padsize - 1 bits; for NumBits(z) >= padsize or z = 0 it returns z unchanged.", "quantifier": "all z and all pad sizes below 2^32", "why_tests_cant": "unbounded integers, boundary at padsize = NumBits(z)+1", "anchors": ["src/libeopsi/ntlmiss.cpp: NTL::zeroPadTo"]}
{"id": "C06", "title": "Padding embeds plain elements injectively in the field", "statement": "When data elements lie in [0, 2^b) and b < NumBits(p), padding by NumBits(p) - b - 1 and reducing modulo p loses nothing: padded values are already below p, so distinct elements become distinct field elements and no reduction happens.", "quantifier": "all primes p (indeed all p > 0), all bit sizes b < NumBits(p), all elements below 2^b", "why_tests_cant": "quantifies over all field sizes and all elements", "anchors": ["src/libeopsi/eopsiclient.cpp: EOPSIClient::padSize, EOPSIClient::blind", "src/libeopsi/ntlmiss.cpp: NTL::zeroPad"]}
{"id": "C07", "title": "A data width equal to the field width destroys the result", "statement": "If setRawData is called with dataBits = NumBits(fieldsize) (which eopsisimul admits because it only rejects fieldsizeBits < plainSetBits), the pad size wraps to 2^64-1: padding halves every element (so 2v and 2v+1 collide) and the pad filter rejects every candidate, so the reported intersection is empty for all data.", "quantifier": "all fields, all data sets with dataBits = NumBits(fieldsize)", "why_tests_cant": "an unsigned wrap-around whose effect must be shown for all data sets", "anchors": ["src/libeopsi/eopsiclient.cpp: EOPSIClient::padSize, EOPSIClient::intersect", "src/libeopsi/zzppoly.cpp: ZZpPolynomials::findIntersection", "src/test/eopsisimul.cpp: main"]}
{"id": "C08", "title": "StrInt::set(bytes) is the little-endian value of the bytes", "statement": "After StrInt(L, ...) and set(n, len) with min(len, L) >= 1, the stored number is the sum of n[i]*256^i over i < min(len, L); the pairwise (tree) summation used internally loses and double counts nothing for any length, odd or even.", "quantifier": "all byte strings, all capacities L, all previous contents", "why_tests_cant": "the bottom-up summation has length-dependent index arithmetic; tests sample few lengths", "anchors": ["src/libeopsi/strint.cpp: StrInt::StrInt, StrInt::set"]}
{"id": "C09", "title": "StrInt behaves as a natural number under every operation history", "statement": "For every sequence of set(unsigned long), set(bytes, len>=1), inc and add starting from a fresh StrInt, rem(d) for d > 0 equals the mathematical value of that history modulo d.", "quantifier": "all operation sequences, all divisors d > 0", "why_tests_cant": "history property", "anchors": ["src/libeopsi/strint.cpp: StrInt::set, StrInt::inc, StrInt::add, StrInt::rem"]}
{"id": "C10", "title": "StrInt::set with no bytes keeps stale data", "statement": "set(n, 0) does not store zero: it stores whatever the internal scratch cell 0 holds, i.e. the last byte-string value set or the last addend; it equals zero only if that scratch value is zero.", "quantifier": "all histories", "why_tests_cant": "depends on the history of earlier calls", "anchors": ["src/libeopsi/strint.cpp: StrInt::set, StrInt::add"]}
{"id": "C11", "title": "StrInt::lsb is exact only for freshly set numbers below 2^64-1", "statement": "lsb() is documented to give the least significant unsigned-long bits. After set(bytes), lsb() equals value mod (2^64-1), which is the low 64 bits iff those residues agree (in particular for values below 2^64-1, and never for value 2^64-1); after set(unsigned long) or add it does not reflect the stored number at all.", "quantifier": "all histories and values", "why_tests_cant": "wrong only on values/histories not near typical test data", "anchors": ["src/libeopsi/strint.cpp: StrInt::lsb"]}
{"id": "C12", "title": "StrInt::toBytes succeeds only for numbers of at most one bit", "statement": "getByteSize() returns the number of bits (not bytes) of the stored number, so toBytes terminates the process with exit code 2 for every stored number >= 2, whatever buffer is passed; it returns the single byte for 0 and 1 with a non-null buffer of recorded length 1.", "quantifier": "all stored numbers and all buffers", "why_tests_cant": "a claim about all numbers", "anchors": ["src/libeopsi/strint.cpp: StrInt::toBytes, StrInt::getByteSize"]}
{"id": "C13", "title": "add puts an element at the end of bucket hash(e) mod k and nowhere else", "statement": "With a hash algorithm set and k > 0 buckets, add(e) either terminates the process because bucket hash(e) mod k already holds exactly maxLoad elements, or appends e to that bucket and leaves every other bucket, every mark and all parameters unchanged. hash(e) is read as a little-endian number.", "quantifier": "all tables, all elements, all hash algorithms", "why_tests_cant": "frame condition over arbitrary states", "anchors": ["src/libeopsi/hashbuckets.hpp: HashBuckets::add", "src/libeopsi/strint.cpp: StrInt::set, StrInt::rem"]}
{"id": "C14", "title": "Under any history of add no bucket exceeds maxLoad and nothing is lost", "statement": "Starting from an empty table, after any successful sequence of add calls each bucket holds at most maxLoad elements, and bucket i holds exactly the added elements whose hash mod k is i, in insertion order; the sequence fails (process exit 1) iff some bucket would receive more than maxLoad elements.", "quantifier": "all sequences of elements, all k > 0, all maxLoad", "why_tests_cant": "invariant over histories", "anchors": ["src/libeopsi/hashbuckets.hpp: HashBuckets::add", "src/libeopsi/hashtable.hpp: HashTable::add"]}
{"id": "C15", "title": "addToBucket bypasses the load limit and then add no longer enforces it", "statement": "addToBucket(e, i) appends to bucket i for every i < k regardless of maxLoad and terminates the process for i >= k; once a bucket exceeds maxLoad, later add calls to that bucket never fail, so maxLoad is not an invariant of the class.", "quantifier": "all tables and all overfull buckets", "why_tests_cant": "needs a particular history; the claim is that every later add succeeds", "anchors": ["src/libeopsi/hashbuckets.hpp: HashBuckets::addToBucket, HashBuckets::add"]}
{"id": "C16", "title": "conceal fills every bucket to exactly maxLoad, keeping the real elements", "statement": "If no bucket exceeds maxLoad, after conceal every bucket has exactly maxLoad elements, its original elements are still there as a prefix in the same order, it is newly marked iff it was empty, and exactly k*maxLoad - (elements before) values are drawn from the generator, used in order.", "quantifier": "all tables, all generators", "why_tests_cant": "loop over all states", "anchors": ["src/libeopsi/hashbuckets.hpp: HashBuckets::conceal", "src/libeopsi/markedvector.hpp: MarkedVector"]}
{"id": "C17", "title": "After conceal the table is sealed", "statement": "After conceal on a table where no bucket exceeds maxLoad, a second conceal draws nothing and changes no element, and every add(e) terminates the process; hence calling setRawData a second time on a client with non-empty data always terminates the process with code 1.", "quantifier": "all tables, all elements, all data sets", "why_tests_cant": "history property ending in process exit", "anchors": ["src/libeopsi/hashbuckets.hpp: HashBuckets::conceal, HashBuckets::add", "src/libeopsi/eopsiclient.cpp: EOPSIClient::setRawData, EOPSIClient::blind"]}
{"id": "C18", "title": "HashTable::size never counts anything; the dimensions never change", "statement": "size(), documented as the number of elements added, returns 0 after every sequence of add, addToBucket, add(list,n) and conceal; getLength() and getMaxLoad() stay the numbers the table was made with, and exactly the buckets before getLength() can be read.", "quantifier": "all operation histories", "why_tests_cant": "history property", "anchors": ["src/libeopsi/hashtable.hpp: HashTable::size", "src/libeopsi/hashbuckets.hpp"]}
{"id": "C19", "title": "Equal elements meet in equally numbered buckets of different tables", "statement": "Two tables with the same number of buckets and the same (deterministic) hash algorithm put equal elements in buckets with equal index, whatever else they contain; so two sets share an element iff they share it in some equally numbered bucket.", "quantifier": "all pairs of data sets, all table histories", "why_tests_cant": "relational property over two histories", "anchors": ["src/libeopsi/hashbuckets.hpp: HashBuckets::add"]}
{"id": "C20", "title": "Bucket access is bounds checked by process termination", "statement": "getBucket(i)/operator[] return bucket i for i < k and terminate the process (a FATAL exception calls exit in its constructor, so it cannot be caught) for i >= k; they never change the table.", "quantifier": "all tables and all indices", "why_tests_cant": "all states", "anchors": ["src/libeopsi/hashtable.hpp: HashTable::getBucket", "src/libeopsi/outofboundex.cpp", "src/libeopsi/exception.cpp: Exception::handleFatality"]}
{"id": "C21", "title": "MurmurHash3 reads past the end of the decimal string", "statement": "MurmurHash3::hash(n) passes 4*length as the length of a length-byte string: for every element the hash reads bytes beyond the terminating NUL of the decimal text, and for every element of at least 4 digits there are two contents of that foreign memory for which the digests differ, so the digest is not a function of the element.", "quantifier": "all field elements, all seeds, all memory contents", "why_tests_cant": "the out-of-bounds content is environment dependent; a test may pass by luck", "anchors": ["src/libeopsi/murmurhash3.cpp: MurmurHash3::hash, murmurHash3_x64_128"]}
{"id": "C22", "title": "MurmurHash3 tail bytes are ignored", "statement": "murmurHash3_x64_128 does not depend on the bytes after the last full 16-byte block when len mod 16 is not 1 or 9; for 9 only the ninth tail byte matters. It agrees with the published MurmurHash3 x64 128 for len mod 16 in {0,1} and differs from it on some input of every other residue.", "quantifier": "all keys, all lengths, all seeds", "why_tests_cant": "quantifies over all keys and residues", "anchors": ["src/libeopsi/murmurhash3.cpp: murmurHash3_x64_128"]}
{"id": "C23", "title": "Short elements collide under MurmurHash3", "statement": "Any two field elements whose decimal forms have the same number of digits d <= 3 get the same digest, for every seed: such elements always share a bucket.", "quantifier": "all seeds, all pairs of elements below 1000 with equally many digits", "why_tests_cant": "all seeds", "anchors": ["src/libeopsi/murmurhash3.cpp: MurmurHash3::hash"]}
{"id": "C24", "title": "MurmurHash3 is collision free on keys that differ in one block", "statement": "For keys of equal length (a multiple of 16) that agree on all blocks but one, the x64 digests differ; in particular the digest is injective on 16-byte keys. The final mix is a bijection on 64-bit words.", "quantifier": "all seeds, all keys whose length is a multiple of 16", "why_tests_cant": "injectivity over 2^128 inputs", "anchors": ["src/libeopsi/murmurhash3.cpp: fmix64, murmurHash3_x64_128"]}
{"id": "C25", "title": "ZZPRF::generate is a function of seed, index and bits", "statement": "For bits > 0 the value returned by generate(seed, index, bits) is the same whatever calls were made on the object before (the reused buffers never leak into the result), and no call writes outside its buffers.", "quantifier": "all call histories, all seeds, indices and bit sizes > 0", "why_tests_cant": "history independence and memory safety for every history", "anchors": ["src/libeopsi/zzprf.cpp: ZZPRF::generate"]}
{"id": "C26", "title": "ZZPRF output has at most the requested number of bits", "statement": "For bits > 0, 0 <= generate(seed, index, bits) < 2^bits.", "quantifier": "all seeds, indices, bits > 0, all hash functions", "why_tests_cant": "all inputs", "anchors": ["src/libeopsi/zzprf.cpp: ZZPRF::generate"]}
{"id": "C27", "title": "Shorter ZZPRF outputs are truncations of longer ones", "statement": "For 0 < b <= c, generate(seed, i, b) = generate(seed, i, c) mod 2^b.", "quantifier": "all seeds, indices, 0 < b <= c", "why_tests_cant": "relational, all bit sizes, crosses digest-chaining boundaries", "anchors": ["src/libeopsi/zzprf.cpp: ZZPRF::generate"]}
{"id": "C28", "title": "Distinct (seed, index) pairs feed distinct inputs to the hash", "statement": "For non-negative seeds and indices below 2^64 the byte string hashed first by generate determines both seed and index; seeds s and -s give identical streams.", "quantifier": "all pairs of seeds and indices", "why_tests_cant": "injectivity over unbounded seeds", "anchors": ["src/libeopsi/zzprf.cpp: ZZPRF::generate"]}
{"id": "C29", "title": "Omitting the bit size of ZZPRF is undefined behaviour", "statement": "generate(seed, index) (bits defaulted to 0) draws r = rand() and, whenever r > 24, shifts a byte by at least 32 positions (undefined behaviour); for 1 <= r <= 24 it zeroes the last byte.", "quantifier": "all seeds, indices and rand() outcomes", "why_tests_cant": "depends on rand(); on x86 UB may look harmless", "anchors": ["src/libeopsi/zzprf.cpp: ZZPRF::generate", "src/libeopsi/prf.hpp: PseudoRandom::generate"]}
{"id": "C30", "title": "ZZpPRF output is a field element and the requested width is capped by the field", "statement": "ZZpPRF::generate(seed, index, bits) lies in [0, p), equals the ZZPRF output for min(bits, NumBits(modulo)) bits (NumBits(modulo) if bits = 0) reduced modulo p, and never triggers the undefined zero-width case when modulo > 0.", "quantifier": "all seeds, indices, bits, moduli > 0", "why_tests_cant": "all inputs", "anchors": ["src/libeopsi/zzpprf.cpp: ZZpPRF::generate"]}
{"id": "C31", "title": "Seedless generation enumerates one stream", "statement": "The k-th call of generate() without arguments on a generator returns generate(s, k, 0) where s is the seed drawn by the first seedless call and never redrawn, interleaved with any number of seeded calls.", "quantifier": "all interleavings of seeded and seedless calls", "why_tests_cant": "history property", "anchors": ["src/libeopsi/prf.hpp: PseudoRandom::generate"]}
{"id": "C32", "title": "cumulativeBenchmark adds up exactly the running time", "statement": "For every sequence of start/step/pause/cont/stop/reset calls and clock readings, cumulativeBenchmark() equals the sum, over consecutive recorded times, of the elapsed microseconds of those intervals during which the chronometer was not paused. With a cursor (number or name) it covers the intervals up to that recorded time, and without the pause correction it is the time elapsed since the first one.", "quantifier": "all operation sequences and clock readings", "why_tests_cant": "history property over an unbounded state machine", "anchors": ["src/libeopsi/simplebm.cpp: SimpleBenchmark::cumulativeBenchmark, sumNotPausedTimes"]}
{"id": "C33", "title": "A stopped chronometer is frozen until start or reset", "statement": "After stop() on a chronometer that is running or paused, or that was ever started, any sequence of step, pause, cont and stop leaves the whole object and hence every reported figure unchanged. (Exception: on a never started chronometer step() after stop() still starts it.)", "quantifier": "all states after stop and all operation sequences", "why_tests_cant": "history property", "anchors": ["src/libeopsi/simplebm.cpp: SimpleBenchmark::stop, step, pause, cont"]}
{"id": "C34", "title": "min and max bound every running interval and are attained", "statement": "If at least two times were recorded, min() and max() are the least and greatest elapsed time among the not paused intervals (such an interval always exists), and min() <= average() <= max().", "quantifier": "all operation sequences with >= 2 recorded times", "why_tests_cant": "all histories", "anchors": ["src/libeopsi/simplebm.cpp: SimpleBenchmark::minOrMax, min, max, average"]}
{"id": "C35", "title": "Statistics including pauses are always zero", "statement": "min(false), max(false), average(false), variance(false) and standardDeviation(false), documented to take all steps into account, return 0 in every reachable (and unreachable) state.", "quantifier": "all states", "why_tests_cant": "claim over all states", "anchors": ["src/libeopsi/simplebm.cpp: SimpleBenchmark::average, variance, standardDeviation, min, max"]}
{"id": "C36", "title": "benchmark() with a single recorded time is undefined", "statement": "benchmark() (cursor 0, or an unknown cursor name) reads outside the recorded times exactly when one time has been recorded, e.g. right after start(); it is safe with no or at least two recorded times, and any cursor >= 1 is safe.", "quantifier": "all states and cursors", "why_tests_cant": "UB reachable only in some states; need all states for safety", "anchors": ["src/libeopsi/simplebm.cpp: SimpleBenchmark::benchmark"]}
{"id": "C37", "title": "A named cursor denotes the last interval recorded under that name", "statement": "benchmark(name) after any history is the elapsed time between the latest recorded time labelled name since the last start/reset and the time recorded just before it. benchmark(k) with a number is the interval that ends at the k-th recorded time, benchmark(0) the last one, and 0 is returned for a number past the last recorded time.", "quantifier": "all operation sequences and names", "why_tests_cant": "history property", "anchors": ["src/libeopsi/simplebm.cpp: SimpleBenchmark::takeTime, getNumericCursor, benchmark"]}
{"id": "C38", "title": "reset does not restore the initial state", "statement": "After reset() the chronometer reports itself as not stopped (isStopped() = false), unlike a freshly constructed one; a stop() issued next records a time, whereas on a fresh chronometer it does nothing.", "quantifier": "all states", "why_tests_cant": "all histories", "anchors": ["src/libeopsi/simplebm.cpp: SimpleBenchmark::SimpleBenchmark, reset, stop"]}
{"id": "C39", "title": "Interpolation recovers the polynomial from its values", "statement": "For distinct points x_0..x_{n-1} and any polynomial f of degree < n over the field, interpolate of the values f(x_i) is f itself; with a repeated point the operation aborts.", "quantifier": "all primes p, all n, all point vectors, all polynomials", "why_tests_cant": "algebraic identity over all fields and degrees", "anchors": ["src/libeopsi/zzppoly.cpp: ZZpPolynomials::interpolate, findIntersection"]}
{"id": "C40", "title": "findIntersection returns exactly the padded roots", "statement": "findIntersection(x, y, n) returns, polynomial by polynomial, each root z of the j-th interpolated polynomial (once, whatever its multiplicity) that has at least padsize trailing zero bits, shifted right by padsize; nothing else.", "quantifier": "all prime fields, all value matrices with no zero row, all correct factoring algorithms", "why_tests_cant": "universally quantified over inputs and over the factoring algorithm", "anchors": ["src/libeopsi/zzppoly.cpp: ZZpPolynomials::findIntersection"]}
{"id": "C41", "title": "The step-by-step and the one-shot intersection agree", "statement": "interpolate(x,y,n); factorise(alg); findIntersection() returns the same vector as findIntersection(x,y,n,alg) on a fresh object, for either factoring algorithm and for unknown algorithm codes.", "quantifier": "all inputs", "why_tests_cant": "equivalence of two code paths for all inputs", "anchors": ["src/libeopsi/zzppoly.cpp: interpolate, makeMonic, factorise, findIntersection"]}
{"id": "C42", "title": "Mixing the step-by-step and one-shot calls is unsafe", "statement": "On a fresh object, interpolate(x,y,n) followed by findIntersection(x,y,n) with the same n > 0 dereferences a null factor array; interpolate/factorise for n polynomials, then interpolate for m > n, then findIntersection() reads beyond the factor array.", "quantifier": "all inputs x, y and all n > 0, m > n", "why_tests_cant": "call-sequence property", "anchors": ["src/libeopsi/zzppoly.cpp"]}
{"id": "C43", "title": "Blinding is undone exactly by the helper's polynomial values", "statement": "For every bucket j and point i, t[j][i] - q[j][i] = PA_j(x_i)*wA_j(x_i) + PB_j(x_i)*wB_j(x_i) in the field, where t is computed by the server from the blinded data and q by the helping client from the two secrets, for every PRF and every temporary key.", "quantifier": "all primes, all PRFs, all data, secrets, keys and table shapes", "why_tests_cant": "algebraic identity over all executions", "anchors": ["src/libeopsi/eopsiparty.cpp: EOPSIParty::computeTOrQ, genOmega", "src/libeopsi/eopsiclient.cpp: delegationOutput, blind, intersect", "src/libeopsi/eopsiserver.cpp: intersectionOutput"]}
{"id": "C44", "title": "The requester's polynomial has degree exactly 2*height", "statement": "With degree = 2*height+1 distinct unknowns and an odd prime field, each interpolated polynomial equals PA_j*wA_j + PB_j*wB_j, has degree 2*height and leading coefficient 2, so monicisation and factoring are always applied to a non-zero polynomial.", "quantifier": "all executions over odd prime fields with distinct unknowns", "why_tests_cant": "degree claim for all data", "anchors": ["src/libeopsi/eopsiclient.cpp: EOPSIClient::intersect", "src/libeopsi/zzppoly.cpp: findIntersection"]}
{"id": "C45", "title": "No common element is missed (completeness)", "statement": "Every non-zero element contained in both clients' data sets is in getIntersection() of the requester after the protocol run (and 0 too when the pad size is 0), provided both data sets fit their tables and the unknowns are distinct.", "quantifier": "all odd primes, data sets, PRFs, keys, fill-ins", "why_tests_cant": "must hold for all data and all randomness", "anchors": ["src/libeopsi/eopsiclient.cpp", "src/libeopsi/eopsiserver.cpp", "src/libeopsi/eopsiparty.cpp", "src/libeopsi/zzppoly.cpp"]}
{"id": "C46", "title": "Every reported element is explained (exactness)", "statement": "A value v is reported iff v (padded) is a root of PA_j*wA_j + PB_j*wB_j for some bucket j and v <> 0 or the pad size is 0. Consequently, if no padded non-common value is such a root, getIntersection() is exactly the set intersection (minus 0 when padded), without duplicates.", "quantifier": "all executions", "why_tests_cant": "exact characterisation of the output for all inputs", "anchors": ["src/libeopsi/eopsiclient.cpp: EOPSIClient::intersect", "src/libeopsi/zzppoly.cpp: findIntersection"]}
{"id": "C47", "title": "A false positive needs one particular random coefficient", "statement": "For any bucket and any field value z that is not a common root of both bucket polynomials, and for any choice of all other random coefficients, exactly one value of one constant coefficient of wA (or wB) makes z a root; so a false positive at z has probability exactly 1/p for an ideal PRF.", "quantifier": "all bucket contents, all z, all other coefficients", "why_tests_cant": "counting statement over the whole field", "anchors": ["src/libeopsi/eopsiparty.cpp: EOPSIParty::genOmega, computeTOrQ"]}
{"id": "C48", "title": "The element 0 is never reported when padding is in use", "statement": "With pad size > 0 the element 0 is never in getIntersection(), even if both clients hold it.", "quantifier": "all executions with pad size > 0", "why_tests_cant": "negative claim over all executions", "anchors": ["src/libeopsi/zzppoly.cpp: findIntersection", "src/libeopsi/ntlmiss.cpp: countLeadingZeros"]}
{"id": "C49", "title": "Blinding is a one-time pad on the outsourced matrix", "statement": "For every client data set and every target matrix of field elements there is exactly one pad matrix for which the outsourced (blinded) matrix is that target: the server's stored view is compatible with every data set.", "quantifier": "all data sets, all views", "why_tests_cant": "bijection over all matrices", "anchors": ["src/libeopsi/eopsiclient.cpp: EOPSIClient::blind"]}
{"id": "C50", "title": "PRF positions are never reused inside a computation", "statement": "In one t/q computation with height <= degree and 2*length*degree + length*height <= 2^64, the PRF indices used for the additive mask and for the coefficients of all wA and wB polynomials are pairwise distinct; the blinding indices of distinct cells are distinct. With height > degree (and at least one bucket) a coefficient of wA reuses an index of wB.", "quantifier": "all table shapes", "why_tests_cant": "index arithmetic over all shapes", "anchors": ["src/libeopsi/eopsiparty.cpp: EOPSIParty::computeTOrQ", "src/libeopsi/eopsiclient.cpp: blind, delegationOutput"]}
{"id": "C51", "title": "The cloud request survives its byte encoding", "statement": "For all party ids without NUL bytes and every key with at most 128 bits, the server decodes from the helper's cloud request the same helper id, partner id and key; an id containing a NUL byte is always rejected with a protocol exception by the receiver.", "quantifier": "all ids and keys", "why_tests_cant": "codec round trip over all strings", "anchors": ["src/libeopsi/eopsiclient.cpp: EOPSIClient::receive", "src/libeopsi/eopsiserver.cpp: EOPSIServer::receive"]}
{"id": "C52", "title": "The helper reads exactly three bytes of the requester's secret", "statement": "With the request encoding of eopsisimul, the helper recovers the requester's secret iff 2^8 <= secret < 2^24; a longer secret is silently reduced modulo 2^24 and for a secret below 2^8 the helper reads beyond the message.", "quantifier": "all secrets and ids", "why_tests_cant": "boundary behaviour for all secrets", "anchors": ["src/libeopsi/eopsiclient.cpp: EOPSIClient::receive", "src/test/eopsisimul.cpp: main"]}
{"id": "C53", "title": "Only authorised message kinds are accepted", "statement": "A server accepts outsourcing data and cloud requests from authenticated clients only (servers are refused); a client accepts client requests and polynomials from authenticated clients and computation outputs from authenticated servers; every other combination raises a protocol exception and changes nothing in any party.", "quantifier": "all worlds, senders, receivers and message kinds", "why_tests_cant": "all states", "anchors": ["src/libeopsi/eopsiclient.cpp: receive, isAuthorised", "src/libeopsi/eopsiserver.cpp: receive, isAuthorised"]}
{"id": "C54", "title": "Messages from strangers: servers refuse, clients crash", "statement": "A server receiving a message from an id it has not authenticated throws a protocol exception and keeps its state; a client in the same situation dereferences a null pointer (undefined behaviour).", "quantifier": "all worlds and messages", "why_tests_cant": "all states", "anchors": ["src/libeopsi/eopsiclient.cpp: EOPSIClient::isAuthorised", "src/libeopsi/eopsiserver.cpp: EOPSIServer::isAuthorised"]}
{"id": "C55", "title": "Self-messages and null messages are refused", "statement": "receive of a message whose sender id is the receiver's own id throws and changes nothing; send of a null message throws and changes nothing.", "quantifier": "all worlds", "why_tests_cant": "all states", "anchors": ["src/libeopsi/eopsiparty.cpp: EOPSIParty::send", "src/libeopsi/eopsiclient.cpp: receive", "src/libeopsi/eopsiserver.cpp: receive"]}
{"id": "C56", "title": "authenticate is a last-writer-wins directory that never contains oneself", "statement": "After any sequence of authenticate calls, hasAuthenticated(id) holds iff some party with that id, different from the own id, was authenticated; the party found is the latest one; the own id is never found.", "quantifier": "all call sequences", "why_tests_cant": "history property", "anchors": ["src/libeopsi/eopsiparty.cpp: authenticate, hasAuthenticated, getPartyById"]}
{"id": "C57", "title": "The server uses the latest data outsourced by each client", "statement": "After any sequence of accepted outsourcing messages the data the server uses for a client id is the message object sent last by it, and storing for one client never affects another; messages are stored by reference, so later changes of the message object are seen by the server.", "quantifier": "all sequences of outsourcing messages", "why_tests_cant": "history property", "anchors": ["src/libeopsi/eopsiserver.cpp: EOPSIServer::receive, intersectionOutput"]}
{"id": "C58", "title": "A computation request before both outsourced is undefined behaviour", "statement": "If either the requester or the helper has no data stored at the server when the cloud request arrives, the server dereferences a null pointer; no reply is sent and no exception reported.", "quantifier": "all worlds lacking one of the stored data", "why_tests_cant": "crash for every such state", "anchors": ["src/libeopsi/eopsiserver.cpp: EOPSIServer::intersectionOutput"]}
{"id": "C59", "title": "Results are consumed: the same objects cannot do a second run", "statement": "After a client has received both results of a run (t from the server and q from the helper), the memory of both is freed but the pointers stay. Whatever the program does afterwards, another POLYNOMIAL delivered to that client never ends normally, nor does another OUTPUT unless the client has acted as a helper since; with readable data both read freed memory. In particular, after the simulator's run, asking again - the same client asking again, or the former helper asking - always makes the asking client read freed memory: the objects serve one run only.", "quantifier": "all worlds after a completed run", "why_tests_cant": "memory-lifetime property over histories", "anchors": ["src/libeopsi/eopsiclient.cpp: EOPSIClient::receive, intersect"]}
{"id": "C60", "title": "Message cascades are bounded", "statement": "Delivering any single message to any party triggers at most three nested deliveries in every world: the protocol never loops.", "quantifier": "all worlds and messages", "why_tests_cant": "termination over all configurations", "anchors": ["src/libeopsi/eopsiclient.cpp: receive", "src/libeopsi/eopsiserver.cpp: receive", "src/libeopsi/eopsiparty.cpp: send"]}
{"id": "C61", "title": "The order of t and q does not matter", "statement": "The requester computes the same intersection whether the server's output or the helper's polynomial arrives first, and does not compute anything before both have arrived.", "quantifier": "all pairs of result messages, all states without pending results", "why_tests_cant": "commutation over all states", "anchors": ["src/libeopsi/eopsiclient.cpp: receive, intersect"]}
{"id": "C62", "title": "The requested thread count does not change the outsourced data", "statement": "setRawData with any nThreads yields the same blinded data and the same table.", "quantifier": "all thread counts and hardware", "why_tests_cant": "all configurations", "anchors": ["src/libeopsi/eopsiclient.cpp: EOPSIClient::blind"]}
{"id": "C63", "title": "All parties agree on the evaluation points", "statement": "Any two parties with the same field size and degree use the same unknowns, which do not change over a party's life, whatever it does; consequently changing the degree after first use does not change the number of unknowns (and raising it makes the next computation read out of bounds).", "quantifier": "all parties and histories", "why_tests_cant": "history property", "anchors": ["src/libeopsi/eopsiparty.cpp: generateUnknowns, getUnknowns, setDegree, computeTOrQ"]}
{"id": "C64", "title": "The simulator's reference intersection is correct for duplicate-free inputs only", "statement": "eopsisimul's intersect returns the elements common to both arrays, sorted and without repetition, if neither array contains a duplicate; an element duplicated within one array only is wrongly reported.", "quantifier": "all arrays", "why_tests_cant": "all inputs", "anchors": ["src/test/eopsisimul.cpp: join, intersect"]}
{"id": "C65", "title": "The simulator's verdict is set equality with equal counts", "statement": "checkIntersectionCorrectness accepts iff both sequences have the same length and the same set of elements; if the reference has no duplicates then acceptance means the protocol output is a permutation of it.", "quantifier": "all pairs of sequences", "why_tests_cant": "all inputs", "anchors": ["src/test/eopsisimul.cpp: checkIntersectionCorrectness"]}
{"id": "C66", "title": "randomData yields n distinct sorted values or never returns", "statement": "If randomData(n, bits) returns, it returns n strictly increasing values drawn from the generator, all below 2^bits; for n > 2^bits no sequence of draws lets it return.", "quantifier": "all n, bits and random sequences", "why_tests_cant": "non-termination", "anchors": ["src/test/eopsisimul.cpp: randomData"]}
{"id": "C67", "title": "printStats reports the true totals", "statement": "On a table with at least one bucket, printStats reports as total the number of stored elements, as minimum and maximum the least and greatest bucket size, each with the number of the first bucket attaining it; on a table with no bucket it reads outside the bucket array.", "quantifier": "every table reachable by any history of public calls", "why_tests_cant": "All table shapes, and ties between buckets; a test sees a few tables.", "anchors": ["src/libeopsi/hashbuckets.hpp:HashBuckets::printStats"]}
{"id": "C68", "title": "variance divides by all intervals, counting the paused ones", "statement": "With at least two recorded times, variance() equals the sum of squared deviations of the running intervals from average(), divided by the number of all intervals, paused ones included: it is the variance of the running intervals only if there was no pause.", "quantifier": "all histories of calls and all readings of a clock that does not run backwards", "why_tests_cant": "the denominator error shows only for histories with pauses and depends on their number", "anchors": ["src/libeopsi/simplebm.cpp:variance", "src/libeopsi/simplebm.cpp:average"]}
{"id": "C69", "title": "Lowering the degree after first use outsources bare polynomial values", "statement": "If a party's evaluation points were generated for a larger degree than the one set when setRawData is called, every outsourced row still has one cell per point, and the cells beyond the new degree are the plain values of the client's bucket polynomial, without any mask: the server can read them.", "quantifier": "all clients, data sets, secrets, and all degrees smaller than the one first used", "why_tests_cant": "The library's own flow never lowers the degree; the leak shows in no output and holds for every data set and secret.", "anchors": ["src/libeopsi/eopsiclient.cpp:EOPSIClient::blind", "src/libeopsi/eopsiparty.cpp:EOPSIParty::getUnknowns", "src/libeopsi/eopsiparty.cpp:EOPSIParty::setDegree"]}
{"id": "C70", "title": "End to end: the program of the simulator reports the intersection", "statement": "Two clients with different ids and a server authenticate each other, both clients load and outsource non-empty data that fit their tables, and the second client sends the first one a request carrying its id and a secret of two or three bytes. If the factoring routine is correct and the evaluation points are distinct, the program runs to its end without exception, exit or undefined behaviour; the requester's getIntersection() then contains every common element (0 only if there is no padding), a value is reported exactly if it is a root of the combined polynomial of some bucket, and if only common elements are such roots it contains exactly the common elements, once each; the helper's getIntersection() is empty.", "quantifier": "all data sets, secrets, ids, table shapes, primes, hash functions, PRFs (any SHA-1-like function), random temporary keys and thread counts", "why_tests_cant": "a test runs one data set, one key and one random seed; the claim must hold for every combination, across all messages of the run", "anchors": ["src/test/eopsisimul.cpp:347-450", "src/libeopsi/eopsiclient.cpp: receive, setRawData, blind, delegationOutput, intersect", "src/libeopsi/eopsiserver.cpp: receive, intersectionOutput"]}
{"id": "C71", "title": "The simulator's verdict is exact, and no verdict is given when the data do not fit", "statement": "For accepted options, generated data and a prime of the chosen width: if the data of both clients fit the tables, eopsisimul runs to its end and prints 'correct' exactly if the requester reported each common element once and nothing else; it prints 'WRONG' whenever 0 is a common element and there is padding, and whenever some bucket's combined polynomial has an accidental root that passes the pad filter; without either it prints 'correct'. If the data of a client do not fit its table, the program exits with code 1 before any message is sent. Its parties are called Alice, Bob and Cloud, and their secrets have three bytes of which the last is not 0.", "quantifier": "all option values, random sequences, primes, hash functions, PRFs, temporary keys", "why_tests_cant": "the simulator is itself the only test of the project: whether its verdict can be trusted is a claim about all its runs, over all random sequences", "anchors": ["src/test/eopsisimul.cpp: main, randomData, join, intersect, checkIntersectionCorrectness", "src/libeopsi/eopsiclient.cpp: setRawData, intersect"]}
{"id": "C72", "title": "What the simulator accepts and generates", "statement": "The option check of main exits with code 1 exactly for a non-positive -b, -p, -n, -k, -l, a negative -r or -j, -h, r > n, or field bits below plain-set bits (equality is accepted, although the message says 'must be greater'); later options override earlier ones. The generated arrays have n elements of the chosen width each and at least r different common elements; an array may contain duplicates, and the reference intersection is exact nevertheless.", "quantifier": "all sequences of options and all random sequences", "why_tests_cant": "all command lines and all random sequences; overlaps between separately drawn parts are rare", "anchors": ["src/test/eopsisimul.cpp: main, randomData, join, intersect"]}
{"id": "C73", "title": "Conversions to vec_ZZ_p copy every element, and only those", "statement": "vector2VecZZp yields a vector equal to the given std::vector whatever the destination held before. array2VecZZp(v, dim) yields exactly the first dim cells of the array; a dim beyond the array is undefined behaviour; a null pointer leaves the destination unchanged (an empty vector in the returning form).", "quantifier": "all vectors, arrays, dims and previous destinations", "why_tests_cant": "all sizes and contents; an off-by-one in the copied length only shows for a client's buckets at full load", "anchors": ["src/libeopsi/ntlmiss.cpp: vector2VecZZp, array2VecZZp"]}
{"id": "C74", "title": "hash() of the SHA classes is the digest of the (truncated) text", "statement": "A SHA object of flavour 256 computes SHA-256 (32 bytes), of any other flavour SHA-1 (20 bytes); hash(str, len) digests the first len characters, all of them if len is 0 or too large; for integers modulo p the text is the decimal notation, which determines the integer; for byte arrays a null pointer or a zero length yields a null pointer.", "quantifier": "all flavours, texts, integers, lengths and heap states", "why_tests_cant": "all inputs, truncation lengths and flavours, and the size of the buffer written", "anchors": ["src/libeopsi/sha.hpp", "src/libeopsi/shastr.cpp", "src/libeopsi/shazzp.cpp", "src/libeopsi/shabyte.cpp"]}
{"id": "C75", "title": "hash() results live in one buffer per object", "statement": "After any sequence of hash() calls on one object, every pointer returned by any of them reads as the digest of the last call: earlier results are overwritten. Passing the returned buffer back to hash() yields the iterated digest.", "quantifier": "all histories of calls", "why_tests_cant": "aliasing over all call histories; a test that copies each result at once cannot see it", "anchors": ["src/libeopsi/sha.hpp:lastHash", "src/libeopsi/shastr.cpp:hash", "src/libeopsi/shabyte.cpp:hash"]}
{"id": "C76", "title": "name() of a SHA object is defined for flavour SHA1 only", "statement": "SHA::name() adds the flavour to a pointer into the literal \"SHA\": it returns \"SHA\" for SHA1 and is undefined behaviour for the flavours 256 and 128.", "quantifier": "all objects", "why_tests_cant": "undefined behaviour is not observable by a test", "anchors": ["src/libeopsi/sha.hpp:name"]}
{"id": "C77", "title": "readableDigest is a faithful hexadecimal text", "statement": "readableDigest yields two characters 0-9, A-F per byte, and different digests yield different texts.", "quantifier": "all byte strings", "why_tests_cant": "injectivity over all digests", "anchors": ["src/libeopsi/hashalgorithm.hpp:readableDigest"]}
{"id": "C78", "title": "Storage of generators: exact for own storage, double delete when shared", "statement": "A ZZPRF deletes exactly the blocks it allocated, whatever was generated with it. A ZZpPRF constructed from an existing ZZPRF shares its storage: whatever both were used for, destroying both is undefined behaviour, and using the ZZpPRF after the ZZPRF is gone is undefined behaviour.", "quantifier": "all histories of generate calls on both objects and both orders of destruction", "why_tests_cant": "memory lifetimes over all histories; double deletes may go unnoticed in a run", "anchors": ["src/libeopsi/zzprf.cpp: generate, ~ZZPRF", "src/libeopsi/zzpprf.cpp: ZZpPRF", "src/libeopsi/prf.hpp", "src/libeopsi/sha.hpp: ~SHA"]}
{"id": "C79", "title": "cherpars: the printed table size bounds the overflow probability", "statement": "For every accepted command line with exponent n below 64, if 2^n numbers are distributed uniformly among the printed number of buckets, the probability that some bucket receives l or more of them is at most the printed overflow probability (so at most 2^p whenever the program met its target). Overflow of a HashBuckets table of capacity l under add implies that event.", "quantifier": "all bucket sizes, exponents, target probabilities; all hash functions and data sets for the table part (exact real arithmetic)", "why_tests_cant": "a statement about probabilities over h^(2^n) assignments, for all parameters", "anchors": ["src/test/cherpars.cpp: main", "src/libeopsi/hashbuckets.hpp: add"]}
{"id": "C80", "title": "cherpars picks the largest admissible mean load, silently falling back to 1", "statement": "The number of buckets is ceil(2^n / mu) for the largest mu in [1, l] whose Chernoff bound meets the target; if none does, mu = 1 is used without a warning (always so for l = 1, where the bound is 2^n). The mu printed is one less than the mu used.", "quantifier": "all accepted parameters", "why_tests_cant": "maximality over all candidate loads and all parameters", "anchors": ["src/test/cherpars.cpp: main"]}
{"id": "C81", "title": "cherpars command lines", "statement": "cherpars exits with code 1 exactly if some option is -h/unknown, -l below 1, -n not positive or -p not below -0.0001; otherwise the last value given for each option counts; an exponent of 64 or more is undefined behaviour, in particular every command line without -n (the default is 1024).", "quantifier": "all option sequences", "why_tests_cant": "all command lines; the undefined conversion need not fail visibly", "anchors": ["src/test/cherpars.cpp: main", "src/test/cherpars.h"]}
{"id": "C82", "title": "The factoring routine named by the caller is the one used", "statement": "findIntersection(x, y, n, pfa) and factorise(pfa) behave as if only the routine named by pfa existed (Berlekamp for PFA_BERLEKAMP, Cantor-Zassenhaus for every other value), whatever the two routines return; a client's intersect never uses Berlekamp's.", "quantifier": "all routines (nothing assumed about them), all values of pfa, all arguments", "why_tests_cant": "both correct routines give the same sets, so outputs do not show which one ran", "anchors": ["src/libeopsi/zzppoly.cpp: factorise, findIntersection", "src/libeopsi/eopsiclient.cpp: intersect"]}
{"id": "C83", "title": "setFieldsize and setDegree on a new party act like constructor arguments, except for a client's masks", "statement": "After any sequence of setFieldsize and setDegree calls a newly constructed server equals one constructed with the last values. A client does too, except that its mask generator keeps the constructor's field size: after a change to a wider field every mask stays below 2^(bits of the constructor's field).", "quantifier": "all sequences of setter calls, all worlds, all parameters", "why_tests_cant": "all sequences; the narrow masks do not make a run fail when both clients are treated alike", "anchors": ["src/libeopsi/eopsiparty.cpp: setFieldsize, setDegree", "src/libeopsi/eopsiclient.cpp: EOPSIClient", "src/libeopsi/zzpprf.cpp: generate"]}
{"id": "C84", "title": "One server, any number of clients, any order of requests", "statement": "Any number of clients with distinct ids authenticate everybody, outsource to one server and then ask each other. Every list of requests in which nobody asks after having taken part in an earlier one (as requester or as helper) runs without exception; afterwards every requester's getIntersection() is the answer for its own data and its helper's data (all common elements; exactly those if there are no accidental roots), unaffected by the other requests, and everybody else's is empty. A client that has taken part once reads freed memory if it asks (again), whoever helps.", "quantifier": "all numbers of clients, data, ids, secrets of two or three bytes, all fresh lists of requests, all random sequences and correct factoring routines", "why_tests_cant": "unboundedly many clients and request orders; the effect of a third party's request on stored results", "anchors": ["src/test/eopsisimul.cpp: main", "src/libeopsi/eopsiclient.cpp: receive, intersect", "src/libeopsi/eopsiserver.cpp: receive"]}
{"id": "C85", "title": "The temporary key is the first 128-bit value drawn", "statement": "The helper's temporary key is the first value NTL::RandomBits returns that has 128 bits; shorter ones are dropped, and it is at least 2^127 if the values have at most 128 bits. If no value ever has 128 bits the helper does not get beyond drawing.", "quantifier": "all random sequences, all starting points", "why_tests_cant": "rejection depends on the random sequence", "anchors": ["src/libeopsi/eopsiclient.cpp: receive (EOPSI_MESSAGE_CLIENT_COMPUTATION_REQUEST)"]}
{"id": "C86", "title": "A message holds what was set last", "statement": "After any sequence of setPartyId, setType and setData calls a message returns the last id, type and data set (or the constructor's); length() is the length given with the data, but 8 for a null pointer whatever length was given.", "quantifier": "all sequences of setter calls", "why_tests_cant": "all histories", "anchors": ["src/libeopsi/eopsimsg.cpp"]}
{"id": "C87", "title": "A helper asks the server with the least id", "statement": "In every program, when a client handles a computation request it forwards it to the one with the least id (byte order) among the parties it has authenticated whose type is server - wherever the data were stored; a client that knows no server ends the process with exit code 2.", "quantifier": "all programs (sequences of calls), all requests", "why_tests_cant": "all histories of authentications", "anchors": ["src/libeopsi/eopsiclient.cpp: receive", "src/libeopsi/eopsiparty.cpp: authenticate"]}
{"id": "C88", "title": "Clients without data", "statement": "setRawData with a null pointer or size 0 changes nothing. If the data a client outsourced are a null pointer, no computation request about that client ends normally at the server (with at least one bucket and one evaluation point). A client without data that is sent a result (t or q) computes with a size that was never initialised (undefined behaviour).", "quantifier": "all worlds, all requests", "why_tests_cant": "all states of the program", "anchors": ["src/libeopsi/eopsiclient.cpp: setRawData", "src/libeopsi/eopsiserver.cpp: intersectionOutput"]}
{"id": "C89", "title": "Truncation argument of MurmurHash3::hash", "statement": "hash(n, len) with len = 0 or len not smaller than the number d of digits of n is hash(n). With 0 < len < d the call reads inside the decimal text and its terminator exactly if 4*len <= d + 1; then the digest does not depend on anything behind the text, and numbers whose first 16*(len/4) digits agree share it; for len a multiple of 4 it is the published MurmurHash3_x64_128 of the first 4*len digits.", "quantifier": "all numbers, all len, all seeds, all contents of the memory behind the text", "why_tests_cant": "all numbers and lengths; memory safety does not show in a run", "anchors": ["src/libeopsi/murmurhash3.cpp: MurmurHash3::hash"]}
{"id": "C90", "title": "Seedless calls on a plain ZZPRF", "statement": "After any history of calls on a ZZPRF, generate() is generate(index, 0) with index the number of earlier generate() calls modulo 2^64 (calls with an explicit index do not advance it), and all seedless calls use one seed: the value rand() delivered at the first of them.", "quantifier": "all histories of calls", "why_tests_cant": "all histories", "anchors": ["src/libeopsi/prf.hpp: generate", "src/libeopsi/zzprf.cpp: generate"]}
{"id": "C91", "title": "Life of a hash object", "statement": "For any sequence of hash calls and flavour changes on one SHA object, every call succeeds and delivers the digest of the flavour chosen last before it; hashSize and the name follow the flavour; destroying the object returns every block it ever allocated, and only those.", "quantifier": "all initial flavours, all sequences of calls and flavour changes, all messages", "why_tests_cant": "all histories; leaks and double deletes do not show in a run", "anchors": ["src/libeopsi/sha.hpp: setFlavour, SHA, ~SHA, hashSize"]}
{"id": "C92", "title": "Average, deviation and listing of printStats", "statement": "For every reachable table with at least one bucket printStats reports the exact mean of the bucket sizes; the variance whose root it prints is the mean of the squared deviations each rounded down to an integer, hence never above the population variance and 0 whenever all sizes are within 1 of the mean; the listing shows the first min(k,30) buckets (all with the full flag) with their sizes. Without buckets it reads out of bounds.", "quantifier": "all reachable tables, both flag values", "why_tests_cant": "all tables", "anchors": ["src/libeopsi/hashbuckets.hpp: printStats"]}
{"id": "C93", "title": "zzrndgen", "statement": "For every command line the last -b, -n, -o count; a non-positive -b or an unknown option exits 1; an unwritable file exits 1; 1 <= n <= 9 divides by zero; otherwise the file consists of the width, the count and exactly n decimal numbers below 2^b, one per line, the i-th being the pseudo-random value of index i for one seed drawn from rand().", "quantifier": "all option lists, seeds, counts", "why_tests_cant": "all option lists and counts", "anchors": ["src/test/zzrndgen.cpp: main"]}
{"id": "C94", "title": "hbtest", "statement": "For every command line without a rejected option (-h exits 1, SHA512 exits 2, the first one decides) and every file of decimal numbers: a missing file exits 1, -k 0 divides by zero, a bucket that would exceed the load exits 1, otherwise bucket i holds exactly the file's numbers (mod 2^b) that hash to i, in file order, and the statistics are those of that table.", "quantifier": "all option lists, files, tables", "why_tests_cant": "all files and option lists", "anchors": ["src/test/hbtest.cpp: main"]}
{"id": "C95", "title": "zzrndgen output read by hbtest", "statement": "hbtest run on the file written by zzrndgen places exactly the generated numbers, unreduced and in order, whenever no bucket overflows.", "quantifier": "all pairs of command lines naming the same file", "why_tests_cant": "all command lines and generated contents", "anchors": ["src/test/zzrndgen.cpp: main", "src/test/hbtest.cpp: main"]}
{"id": "C96", "title": "polyfact factors polynomials with known roots", "statement": "polyfact ends with exit code 1 at the first refused option; with -b 1 NTL raises an error; without -q and with fewer than 10 experiments it divides by zero. Otherwise it generates exactly n polynomials over the prime field, the j-th monic, of the requested degree d, whose roots are exactly the d pseudorandom values number j*d .. j*d+d-1 for the start time as seed; it prints between 10 and 19 progress dots, none with -q.", "quantifier": "all command lines, start times, primes, hash functions and numbers of experiments", "why_tests_cant": "all command lines and start times", "anchors": ["src/test/polyfact.cpp: main"]}
{"id": "C97", "title": "figures shown by polyfact", "statement": "The average, minimum, maximum and total shown by polyfact are those of the n times spent in the factorisations (and, without -q, in the generations), none of the time in between counting; the squared standard deviation is the sum of the squared deviations divided by 2n-1.", "quantifier": "all clock readings and numbers of experiments", "why_tests_cant": "all timings", "anchors": ["src/test/polyfact.cpp: main", "src/libeopsi/simplebm.cpp"]}
{"id": "C98", "title": "data computed by bptest", "statement": "bptest ends at the first refused option, and with exit code 1 if the input file is missing or a bucket overflows. Otherwise the i-th bucket holds the numbers of the file, shifted by the bits of the prime and reduced, that hash to it, in order, filled up with field elements to the maximum load; each polynomial is monic and has exactly the bucket's elements as roots; each row of evaluations has 2(2l+1) entries: the first 2l+1 are the masked values at 0, the others the unmasked values at the pseudorandom unknowns.", "quantifier": "all command lines, number files, primes and hash functions", "why_tests_cant": "all command lines and files", "anchors": ["src/test/bptest.cpp: main"]}
{"id": "C99", "title": "times printed by bptest", "statement": "The seven times bptest prints are exactly the durations of padding, hashing, concealing, polynomial generation, unknown generation, evaluation and blinding; the time in between does not count.", "quantifier": "all clock readings, command lines and files", "why_tests_cant": "all timings", "anchors": ["src/test/bptest.cpp: main", "src/libeopsi/simplebm.cpp"]}
{"id": "C100", "title": "bptest's blinded evaluations reveal the buckets", "statement": "If the unknowns drawn are distinct, the second half of each row that bptest calls blinded interpolates to that bucket's polynomial, whose roots are the bucket's elements: the rows hide nothing.", "quantifier": "all command lines, files, primes and hash functions with distinct unknowns", "why_tests_cant": "all inputs", "anchors": ["src/test/bptest.cpp: main"]}
{"id": "C101", "title": "The phase times printed for an intersection", "statement": "For every reading of the clock and every number of buckets, the totals and averages printed for interpolation, monicisation, factorisation and filtering are those of the times between the readings around each phase of each bucket, the square of the deviation divides the sum of squared differences by 2n-1, and if the clock never goes back the four totals never exceed the printed total.", "quantifier": "all clocks, all numbers of buckets", "why_tests_cant": "all clock readings", "anchors": ["src/libeopsi/zzppoly.cpp: ZZpPolynomials::findIntersection", "src/libeopsi/simplebm.cpp"]}
{"id": "C102", "title": "The times printed by the parties", "statement": "The helper's time leaves out the call to the server; the server's time is that of the whole request; the requester's intersection time covers the whole computation and contains the time findIntersection reports; a client that still waits for a message prints no intersection time.", "quantifier": "all clocks, all numbers of buckets", "why_tests_cant": "all clock readings", "anchors": ["src/libeopsi/eopsiclient.cpp: receive", "src/libeopsi/eopsiserver.cpp: receive"]}
{"id": "C103", "title": "The times printed by the simulator", "statement": "Every time printed by the simulator is the time between the readings around that step, and the time reported for the protocol is the sum of outsourcing, the plain intersection, the request and the steps between them, without the blinding.", "quantifier": "all clocks", "why_tests_cant": "all clock readings", "anchors": ["src/test/eopsisimul.cpp: main"]}
{"id": "C104", "title": "hbtest reads any layout of the number file", "statement": "hbtest builds the same table from any text holding the width, the count and the numbers as words: any blanks between them, leading zeros, plus signs (for the width and the count) and minus signs (reduced modulo 2^64, numbers modulo 2^width), and anything after the last digit of the last number.", "quantifier": "all command lines, layouts, numbers and hash functions", "why_tests_cant": "all texts", "anchors": ["src/test/hbtest.cpp: main"]}
{"id": "C105", "title": "Outsourced data live only as long as the client object", "statement": "The server keeps a pointer to the blinded data, not a copy: after the client object that outsourced them is destroyed, and whatever the program does afterwards (constructing and registering the client anew included), a computation request to a server whose stored message still refers to those data makes it read freed memory and is never carried out. Destroying a client releases its blinded data and changes nothing else; destroying it twice is a double free.", "quantifier": "all worlds, all later histories of operations, deliveries and destructions, all requests", "why_tests_cant": "all histories; use after free need not be visible in a run", "anchors": ["src/libeopsi/eopsiclient.cpp: EOPSIClient::~EOPSIClient", "src/libeopsi/eopsiserver.cpp: EOPSIServer::intersectionOutput, receive", "src/libeopsi/eopsiparty.cpp: computeTOrQ"]}
{"id": "C106", "title": "The simulator's clean-up releases every protocol array exactly once", "statement": "After a successful run, deleting the two clients, the server and the request's bytes, as eopsisimul does, deletes only live arrays and leaves no array of the protocol (blinded data, request, cloud request, both results) unreleased.", "quantifier": "all data sets, parameters, ids, secrets, keys and factoring results for which the run is in its setting", "why_tests_cant": "all inputs; leaks and double frees need not be visible in a run", "anchors": ["src/test/eopsisimul.cpp: main", "src/libeopsi/eopsiclient.cpp: EOPSIClient::~EOPSIClient, receive", "src/libeopsi/eopsiserver.cpp: receive"]}
{"id": "C107", "title": "hbtest on a file whose first words are not a width and a count", "statement": "A file with only blanks makes hbtest use an uninitialised width; a first word that is no number, 0, or at least 2^63 ends it (invalid modulus); a good width followed by blanks only makes it use an uninitialised count; a good width followed by something that is no number is accepted silently as count 0: every bucket stays empty.", "quantifier": "all texts of the five forms, all command lines, hash algorithms and files", "why_tests_cant": "all texts; use of an uninitialised variable need not be visible in a run", "anchors": ["src/test/hbtest.cpp: main"]}
{"id": "C108", "title": "The parties trust the payload of a message they accept", "statement": "A request or result of an accepted kind from a registered sender is read without any check of pointer or length: a null data pointer is dereferenced, a deleted array is read, a request without terminating NUL, a cloud request with fewer than 16 bytes after its second NUL, and a client request with fewer than 3 bytes after its NUL are read past their end.", "quantifier": "all worlds, parties, registered senders, ids and payloads of these forms", "why_tests_cant": "all payloads and states; reading outside an array need not be visible in a run", "anchors": ["src/libeopsi/eopsiclient.cpp: EOPSIClient::receive", "src/libeopsi/eopsiserver.cpp: EOPSIServer::receive", "src/libeopsi/eopsimsg.cpp: EOPSIMessage::setData"]}
{"id": "C109", "title": "The work-sharing branch of blind would skip buckets", "statement": "The branch of blind() for more than one thread (switched off by nThreads = 1) never leaves its arrays, but evaluates only the first nThreads*floor((length+1)/nThreads) bucket polynomials; the remaining rows keep their zeros. No bucket is skipped exactly if (length+1) mod nThreads is 0 or 1.", "quantifier": "all numbers of threads above one, numbers of buckets, polynomials and points", "why_tests_cant": "all combinations of thread and bucket counts; the branch cannot be reached in a build", "anchors": ["src/libeopsi/eopsiclient.cpp: EOPSIClient::blind, polEval"]}
{"id": "C110", "title": "The requester learns nothing about the helper's bucket beyond the common elements", "statement": "In every run the two rows t[j], q[j] the requester receives for bucket j are a fixed function of the two buckets' elements, the clients' masks, and field elements drawn from the stream of the temporary key (one mask per point and 2*height coefficients), which the requester is never sent. For any two possible contents of the helper's bucket that share the same elements (with multiplicity) with the requester's bucket there is a one-to-one change of the drawn field elements under which the requester receives exactly the same rows. So with uniformly drawn values the view has the same distribution for both.", "quantifier": "all fields, evaluation points, bucket capacities, buckets of the two clients, alternative buckets with the same common elements, secrets, masks and drawn values", "why_tests_cant": "a statement about all alternative inputs and about a bijection of the whole randomness space", "anchors": ["src/libeopsi/eopsiparty.cpp: EOPSIParty::computeTOrQ, genOmega", "src/libeopsi/eopsiclient.cpp: EOPSIClient::delegationOutput, intersect", "src/libeopsi/eopsiserver.cpp: EOPSIServer::intersectionOutput"]}
{"id": "C111", "title": "Outsourcing twice under one secret reveals the differences", "statement": "If two data sets are outsourced with the same secret (or secrets equal modulo the field size, by one or two clients), the masks cancel: the entrywise difference of what the server stores is the difference of the bucket polynomials at the public points, and, when these points are distinct, a row of the second matrix equals the row of the first exactly if the two buckets hold the same elements.", "quantifier": "all settings, pairs of data sets, secrets equal modulo p, generators, thread counts", "why_tests_cant": "the 'exactly if' ranges over all pairs of bucket contents", "anchors": ["src/libeopsi/eopsiclient.cpp: EOPSIClient::blind, setSecret", "src/test/eopsisimul.cpp: main (constant secrets)"]}
{"id": "C112", "title": "bptest and hbtest on files that cannot be read to the end", "statement": "bptest's outcome depends on the numbers in the file only, not on the announced width, blanks, signs written as + before the count, leading zeros or anything after the last number. A file that does not start with an integer, or has fewer numbers than its count (which, with a minus sign, is taken modulo 2^64, and is the maximum if too large), ends bptest with NTL's input error before anything is measured; if nothing but blanks follows the width, bptest goes on with an uninitialised count; if something that is no number follows, it runs as on a file of no numbers. hbtest ends the same way on a file with fewer numbers than announced (for no buckets: division by zero).", "quantifier": "all texts, valid option lists, hash algorithms, clocks and generators", "why_tests_cant": "ranges over all texts", "anchors": ["src/test/bptest.cpp: main", "src/test/hbtest.cpp: main"]}
{"id": "C113", "title": "average() is the closest double to the true mean", "statement": "For every history with at least two recorded times whose running times sum up to at most 2^53 microseconds, average(true) in IEEE double arithmetic is the double closest to the exact mean of the running times, with a relative error of at most 2^-53, and never outside [min(true), max(true)]; if all running times are the same number of microseconds, average() is exactly that number and variance() and standardDeviation() are exactly 0.", "quantifier": "all histories of fewer than 2^53 (2^50) calls and all clock readings within the bounds", "why_tests_cant": "rounding errors depend on the values; ranges over all histories", "anchors": ["src/libeopsi/simplebm.cpp: average, variance, standardDeviation"]}
{"id": "C114", "title": "rounding error of variance() and standardDeviation()", "statement": "For every history with at least two recorded times, running times between 0 and M microseconds and n intervals (paused ones included), the variance computed in doubles is a nonnegative double within (3n+7) 2^-53 M^2 of the sum of squared deviations divided by n, and standardDeviation() is the double closest to its square root; nothing is undefined, nothing is negative.", "quantifier": "all histories of at most 2^50 calls, all clock readings within the bounds", "why_tests_cant": "accumulated rounding depends on the history's length and values", "anchors": ["src/libeopsi/simplebm.cpp: variance, standardDeviation"]}
{"id": "C115", "title": "rounding in printStats", "statement": "For every reachable table with k buckets and N elements, N k <= 2^52: the average printed is the double closest to N/k; although the deviations are computed from that rounded average, the integers the variance uses are exactly the integer parts of the true deviations; the variance printed is within a factor (1 +- 2^-53)^(k+2) of the mean of their squares, 0 exactly if every size is within 1 of the mean, and the standard deviation printed is the double closest to its root. The fill percentage lies in [0,100] up to a relative error 3*2^-53 of the true one, is 100 exactly if the table is full and 0 exactly if it is empty.", "quantifier": "all reachable tables within the bounds", "why_tests_cant": "whether rounding crosses an integer depends on N and k; ranges over all tables", "anchors": ["src/libeopsi/hashbuckets.hpp: printStats"]}
{"id": "C116", "title": "arrays are released once; what a replaced hash algorithm leaves behind", "statement": "A program that constructs any number of StrInt, HashBuckets and ZZpPolynomials objects, calls them in any order, copies none and destroys each at most once never releases an array twice and never touches a released one. Once all are destroyed, the arrays still allocated are exactly three for every setHashAlgorithm call with an algorithm on a table that already had one (the number object it replaces and its two arrays), and none otherwise.", "quantifier": "all programs of such calls, all sizes", "why_tests_cant": "ranges over all interleavings of construction, use, reuse with other sizes and destruction", "anchors": ["src/libeopsi/strint.cpp: constructor, ~StrInt", "src/libeopsi/hashbuckets.hpp: HashBuckets, ~HashBuckets, setHashAlgorithm, add", "src/libeopsi/zzppoly.cpp: ~ZZpPolynomials, interpolate, factorise, findIntersection"]}
{"id": "C117", "title": "copying a StrInt, HashBuckets or used ZZpPolynomials", "statement": "The classes own arrays but have only the compiler's copy operations. If an object that owns an array is copied (or passed by value), or assigned to another object, then no continuation without further copies gets to the end of the lives of both objects: an array is released twice (undefined behaviour) or the program failed before; destroying the two in either order right away is undefined behaviour. An assignment also loses the arrays the assigned object had. Until one is destroyed, a copied table and its original show the same buckets, whichever of the two elements are added through. Copying a ZZpPolynomials that has no arrays yet is harmless. An assignment is possible exactly between objects of one class; it releases and allocates nothing and changes only the assigned object.", "quantifier": "all programs before the copy, all continuations", "why_tests_cant": "undefined behaviour that may go unnoticed in a run; ranges over all continuations", "anchors": ["src/libeopsi/strint.h: StrInt", "src/libeopsi/hashbuckets.hpp: HashBuckets", "src/libeopsi/zzppoly.h: ZZpPolynomials"]}
{"id": "C118", "title": "Either client together with the server reads the other client's data", "statement": "The protocol's privacy needs a server that does not collude. With the requester's secret, which the helper is sent (C52), the masks can be taken off the requester's matrix stored at the server; interpolating a row then gives a polynomial whose roots are exactly the elements of the requester's bucket. With the temporary key, which the server is sent, and with the requester's secret and q, the values of the helper's bucket polynomial are determined at more than height points, and interpolating them gives a polynomial whose roots are exactly the elements of the helper's bucket. All data elements are among these.", "quantifier": "all settings with distinct points, all secrets, keys, generators, buckets", "why_tests_cant": "that an attack always succeeds (whatever the key makes vanish) ranges over all keys and data", "anchors": ["src/libeopsi/eopsiclient.cpp: receive, blind, delegationOutput", "src/libeopsi/eopsiserver.cpp: receive, intersectionOutput", "src/libeopsi/eopsiparty.cpp: computeTOrQ"]}
{"id": "C119", "title": "The helper learns nothing about the requester's data", "statement": "Two runs of the simulator's program that differ in the requester's data only end with the same helper object (data, table, blinded data, generators, directory, results) and with the same request, byte for byte, received by it; of all arrays of the protocol only the matrix the requester outsourced differs, and it is sent to the server only.", "quantifier": "all settings, all pairs of data sets of the requester, secrets, keys, ids", "why_tests_cant": "a statement about pairs of executions for all data", "anchors": ["src/libeopsi/eopsiclient.cpp: receive, delegationOutput", "src/test/eopsisimul.cpp: main"]}
{"id": "C120", "title": "Exception classes: fatal means exit in the constructor; everything else is plain data", "statement": "Constructing an Exception, ProtocolException or OutOfBoundException with fatal = true writes \"Fatal exception uncaught. <message>\" to the error stream and ends the process with the exception's code (1 for OutOfBoundException) inside the constructor, so it can never be thrown, caught or handled, whatever try blocks surround it. Constructing one that is not fatal has no effect but the object; an OutOfBoundException without message gets the standard text. Over every history of constructions, setters, copies and assignments the getters return what was last set for that object, what() is the message up to its first NUL, and setFatal(true) on an existing exception never ends the process, not even if it is thrown again: an exit code comes only from a throw expression asking for fatality. A non-fatal exception reaches the innermost handler that takes its class, and terminates the program if there is none.", "quantifier": "all constructor arguments, all histories of calls on any number of objects, all nests of try blocks and handlers", "why_tests_cant": "histories and nesting depth are unbounded, and a test process that hits the fatal case dies", "anchors": ["src/libeopsi/exception.cpp:Exception", "src/libeopsi/exception.cpp:handleFatality", "src/libeopsi/outofboundex.cpp:OutOfBoundException", "src/libeopsi/protocolex.h:ProtocolException"]}
{"id": "C121", "title": "The example program randomzzgen: what it lists, and when it never ends", "statement": "Given integers on standard input, the program prompts again for each one below 1, takes the first that is at least 1 (values above the largest int count as the largest int), and prints a heading and ten lines; line i shows i, the PRF value of the first rand() result at index i-1 with that width, always below 2^bits, and its bit length. If before such a number the input ends after at least one integer, or a word that is not a number appears, or an integer below the smallest int, the program prompts for ever. With no input but blanks it reads an uninitialised variable.", "quantifier": "all input texts of the described shape, all hash functions with 20-byte digests, all rand() sequences", "why_tests_cant": "non-termination and uninitialised reads are not observable by tests, and the inputs are unbounded", "anchors": ["res/examples/randomzzgen.cpp:main", "src/libeopsi/zzprf.cpp:generate", "src/libeopsi/zzprf.cpp:randomSeed"]}
{"id": "C122", "title": "Error probability: at most L / 2^pad of the coefficient choices give a wrong result", "statement": "Fix the inputs of a run (data of both clients, secrets, sizes, field, hash). Of all vectors of 2*h*L coefficients that the temporary key's stream can yield, at most a fraction L / 2^pad (pad = bits(p) - b - 1 the number of pad bits, L the number of buckets) gives a result other than the exact intersection (each common element once, 0 only when there is no pad), provided no dummy of one client met an element of the other client in the same bucket. For a single bucket and a field element that is not in both buckets, exactly one in p of the vectors makes it a root; for one in both, every vector does.", "quantifier": "all settings, inputs, secrets, temporary keys, correct factorisers", "why_tests_cant": "it counts over all p^(2hL) coefficient vectors; tests sample a few keys", "anchors": ["src/libeopsi/eopsiparty.cpp:computeTOrQ", "src/libeopsi/eopsiclient.cpp:intersect", "src/libeopsi/ntlmiss.cpp:zeroPad"]}
{"id": "C123", "title": "Where the dummies go, and the error probability over all random choices", "statement": "After blinding, bucket j of each client's table holds exactly the client's data that hash to j followed by the client's next unused dummies, where the dummies are the first L*h - n elements of the pseudo-random stream seeded by that client's rand() result. Count all random choices of a run together: m dummies of both clients and 2*h*L coefficients. For fixed data, all but a fraction of at most L/2^pad + m*h/p of the p^(m+2hL) possible choices give exactly the intersection, and the set of bad choices does not depend on secrets, keys, the random source, thread counts or factoring algorithms.", "quantifier": "all settings, data, secrets, keys, rand() sequences, thread counts and correct factorisers", "why_tests_cant": "it counts over all p^(m+2hL) random choices and locates every dummy for every input", "anchors": ["src/libeopsi/hashbuckets.hpp:conceal", "src/libeopsi/eopsiclient.cpp:blind", "src/libeopsi/eopsiparty.cpp:computeTOrQ", "src/libeopsi/prf.hpp:generate"]}
{"id": "C124", "title": "When memory runs out: what a hash table does at every failing allocation", "statement": "If an allocation fails while a HashBuckets is constructed, the program exits with code 2 (number object, array of buckets) or an exception leaves the constructor (reserving room in the buckets; also when the maximum load is too large for a vector), in which case everything allocated so far is lost. On an existing table a failing allocation makes the call throw (setHashAlgorithm: exit code 2): an add or addToBucket that throws has changed nothing a caller can see, add(list, n) has added the first elements only, an interrupted conceal() has filled the buckets up to some point. A program that catches the exceptions and goes on has, in the end, exactly the table that the calls that returned make without failures; no element or mark is ever lost; conceal() called again until it returns gives what one conceal() gives, at the price of one random number per failure. Adding to a bucket with fewer than 1 + 3*maxLoad/4 elements allocates nothing and cannot throw. Nothing is leaked by failing calls.", "quantifier": "all patterns of failing allocations, all growth policies of std::vector, all table sizes and algorithms, all histories of calls after which the caller catches exceptions", "why_tests_cant": "the failures can come at any allocation of any history; a test injects a few of them", "anchors": ["src/libeopsi/hashbuckets.hpp: HashBuckets::HashBuckets, setHashAlgorithm, add, addToBucket, conceal", "src/libeopsi/strint.cpp: StrInt::StrInt", "src/libeopsi/hashtable.hpp: add(T*, size_t)"]}
{"id": "C125", "title": "The generators when memory runs out", "statement": "Over any history of ZZPRF::generate calls with positive widths (with or without seed) on one generator, with any of its requests for memory refused: the generator asks for memory exactly once for every call whose output is longer than that of all earlier calls and once for every call whose input (seed and index, counted as at least a digest) is longer than all earlier ones. If these requests succeed every call returns its specified value; otherwise the process exits with status 2 during the first call with a refused request, and every value returned before is right. A call no larger than earlier ones never asks for memory, so it succeeds however short memory is. Building a generator takes two requests (a client's takes five) and exits with status 2 if one is refused; any number of full-width masks with seeds of at most 12 bytes takes two requests.", "quantifier": "every history of calls, widths, seeds and indices, and every pattern of refused requests", "why_tests_cant": "Allocation failures can strike at any request of any history; tests run with memory available.", "anchors": ["src/libeopsi/zzprf.cpp: ZZPRF::generate", "src/libeopsi/zzpprf.cpp: ZZpPRF::generate", "src/libeopsi/sha.hpp: setFlavour", "src/libeopsi/eopsiclient.cpp: EOPSIClient::EOPSIClient"]}
{"id": "C126", "title": "Command lines of the programs", "statement": "On every command line (any number of any words), each of the six programs reads its options in exactly one way: letters may be alone, share a word or carry their argument in the same or in the next word; words that are no options are skipped; '--' ends the options; a number is the nearest long to the decimal number the text begins with, 0 without digits. A line read to its end makes the program behave as for that list of options. After an unknown letter or a missing argument, provided the options before are accepted, the program reads argv[63]: it reads past the end of argv with fewer than 63 words, prints a null pointer with exactly 63, and only with 64 or more it shows its usage and returns 1. The simulator returns 1 whenever -b, -k, -l, -n or -p gets anything but a positive number.", "quantifier": "every command line of eopsisimul, zzrndgen, hbtest, bptest, polyfact and cherpars", "why_tests_cant": "There are infinitely many command lines; reading argv out of its bounds usually goes unnoticed (it finds a variable of the environment).", "anchors": ["src/test/eopsisimul.cpp: main (219-289)", "src/test/zzrndgen.cpp: main", "src/test/hbtest.cpp: main", "src/test/bptest.cpp: main", "src/test/polyfact.cpp: main", "src/test/cherpars.cpp: main"]}
{"id": "C127", "title": "One hash table serves one data set", "statement": "A client refers to the hash table it is constructed with. Once any client has loaded a non-empty data set, the table never changes again as long as nobody calls addToBucket on it: every later attempt to load data by any client that refers to the same table, and every add on the table, ends the process with code 1. Elements the caller put into the table beforehand are outsourced like data: adding the moved-up elements and then loading the rest is the same, for every outcome, as loading both together.", "quantifier": "all programs with any number of tables and clients, all assignments of tables to clients, all data", "why_tests_cant": "ranges over all sequences of calls on any number of tables and clients between the two loads", "anchors": ["src/libeopsi/eopsiclient.cpp:EOPSIClient::EOPSIClient", "src/libeopsi/eopsiclient.cpp:EOPSIClient::setRawData", "src/libeopsi/eopsiclient.cpp:EOPSIClient::blind", "src/libeopsi/hashbuckets.hpp:HashBuckets::add", "src/libeopsi/hashbuckets.hpp:HashBuckets::conceal"]}
{"id": "C128", "title": "With fewer than 2*height+1 evaluation points the intersection is silently lost", "statement": "The degree parameter (number of evaluation points) is not checked against the height of the hash tables. For any number D of distinct points the requester's row polynomial is the remainder of the combined polynomial by the product of the D points: if t and q agree in a whole row the intersection aborts, otherwise exactly the padded roots of these remainders are reported. With D = 2*height (one point short) no error is signalled and a common element is reported only if it happens to be an evaluation point itself or an accidental root in a bucket it does not belong to; with a single point nothing is ever reported.", "quantifier": "all odd prime fields, all tables, all data sets that fit, all numbers of points with distinct points, all secrets and keys, all correct factoring routines", "why_tests_cant": "Tests and the simulator always use 2*height+1 points; the loss happens for every data set and every secret, and is silent.", "anchors": ["src/libeopsi/eopsiparty.cpp:EOPSIParty::setDegree", "src/libeopsi/eopsiclient.cpp:EOPSIClient::intersect", "src/libeopsi/eopsiclient.cpp:EOPSIClient::blind"]}
{"id": "C129", "title": "The console gives away the requester's secret and the session key", "statement": "receive() writes to the standard output: a client that accepts a computation request writes the requester's secret (as far as it was sent) and the temporary key of the session in clear decimal, and the server it asks writes the key again. In the simulator's program the lines are, in this order: two 'stored', the secret, the key at the helper, the key at the server, the first entries of t and q at the requester, the statistics. Reading one line and knowing the id at its start is enough to get the number back. Whoever reads the console and has the array the server stores gets exactly the contents of the requester's buckets by subtracting the masks of the written secret and interpolating. Writing influences nothing else. A message that is refused leaves no line.", "quantifier": "all worlds, histories and message contents; for the whole run all admissible parameters, data sets, ids, two- or three-byte secrets and keys", "why_tests_cant": "that every accepted request writes these values, and that the masks of the written secret open every row for every data set, ranges over all inputs", "anchors": ["src/libeopsi/eopsiclient.cpp: EPSIClient::receive, intersect", "src/libeopsi/eopsiserver.cpp: EPSIServer::receive", "src/test/eopsisimul.cpp: main"]}
{"id": "C130", "title": "Failure probability of a whole run, with the parameters that cherpars prints", "statement": "Fix the two data sets and take as outcomes every placing of their elements into the L buckets together with every choice of the dummies and random coefficients. Under an ideal hash function, where all outcomes are equally likely, a run with capacity h fails (exits because a bucket overflows, or reports anything but the intersection) with probability at most P(nA) + P(nB) + L/2^pad + m*h/p, where P(n) is the probability that one of L buckets receives more than h of n elements and m is the number of dummies. With the number of buckets that cherpars prints for capacity h and sets of at most 2^n elements the bound is twice the printed probability plus L/2^pad + m*h/p. Which outcomes are bad does not depend on the hash algorithm otherwise, nor on secrets, keys, the random source, thread counts or the factoring algorithms. As everywhere the requester drops the number 0 if the pad is not empty.", "quantifier": "all odd primes, widths, sizes, data sets, hash algorithms with at least one byte, secrets, keys, rand() sequences, thread counts and correct factorisers; all accepted options of cherpars", "why_tests_cant": "it counts over all L^n placings and p^(m+2hL) random choices for every parameter set", "anchors": ["src/test/cherpars.cpp: main", "src/libeopsi/hashbuckets.hpp: addToBucket, conceal", "src/libeopsi/eopsiclient.cpp: blind, intersect", "src/libeopsi/eopsiparty.cpp: computeTOrQ"]}
{"id": "C131", "title": "setRawData when memory runs out", "statement": "Whichever allocations fail, a call of setRawData with data: ends the process with code 2 exactly if one of the four arrays of blind() cannot be allocated; otherwise it returns, having done exactly what it does when nothing fails (and leaving one array behind), or ends the process with code 1 and then a bucket would overflow, or is left by std::bad_alloc (an allocation after the arrays failed) or std::length_error (the bucket capacity exceeds what a vector can hold). In the last case four arrays stay allocated, the blinded data are a matrix of zeros, party state and secret are unchanged and the hash table holds either a proper prefix of the data or all of them with some buckets filled up by random elements. A caller that catches the exception and calls again with the same data gets a table holding them (or that prefix) twice, and cannot succeed at all if a bucket one of the data belongs to had been filled up.", "quantifier": "every client reachable by any history of setRawData calls (with exceptions caught) from a new one, every modulus greater than 1 (whose size fits a long), table, hash algorithm, data, pseudorandom function, growth policy of std::vector and every set of failing allocations", "why_tests_cant": "the allocation that fails can be any one of many in any call of any history; tests do not inject failures", "anchors": ["src/libeopsi/eopsiclient.cpp:EOPSIClient::setRawData", "src/libeopsi/eopsiclient.cpp:EOPSIClient::blind", "src/libeopsi/hashbuckets.hpp:HashBuckets::add", "src/libeopsi/hashbuckets.hpp:HashBuckets::conceal", "src/libeopsi/hashtable.hpp:HashTable::operator[]"]}
{"id": "C132", "title": "An intersection when memory runs out", "statement": "Once both clients have stored their data, the messages of one intersection request nine arrays with new[]: two in the helper's receive, t in the cloud, two mask matrices and q in the helper, the differences and two arrays of the polynomials object in the requester (seven arrays when the parties have no buckets). If all are granted, the requester's intersection is the one of a run with unlimited memory and no array of the request is left behind, so that any number of requests served by one cloud do not add up; if any of them is refused, the process ends with exit code 2; no exception reaches the caller of send(). With data that fit and different evaluation points the requester finds every common element (except 0 when values are padded) whenever the nine arrays are granted.", "quantifier": "all parties, stored data, keys, secrets, numbers of requests, and all patterns of refused allocations", "why_tests_cant": "a test cannot make every allocation of every run fail in turn, nor run arbitrarily long sequences of requests", "anchors": ["src/libeopsi/eopsiclient.cpp: EOPSIClient::receive, EOPSIClient::delegationOutput, EOPSIClient::intersect", "src/libeopsi/eopsiserver.cpp: EOPSIServer::receive", "src/libeopsi/eopsiparty.cpp: EOPSIParty::computeTOrQ", "src/libeopsi/zzppoly.cpp: ZZpPolynomials::findIntersection, ZZpPolynomials::~ZZpPolynomials"]}
{"id": "C133", "title": "A whole run when memory runs out", "statement": "The program of eopsisimul - two tables, the data of both clients blinded, one intersection - under any pattern of refused allocations, with data that fit and different evaluation points: either it comes to an end, and then the requester has exactly the intersection of a run with unlimited memory, which has every common element (except 0 when values are padded), and what stays allocated is the two tables and the two blinded matrices; or the process ends with exit code 1 or 2 or is aborted by an uncaught exception, and then some request was refused or a bucket is longer than a std::vector may be. There is no partial or wrong answer and no other way to end. A refused request for one of the four numbers or the array of buckets of a table, or for one of the four arrays of the first client's blinding, means exit code 2; one for a bucket means exit code 1; a bucket longer than a vector may be means that the process is aborted at the first table.", "quantifier": "all settings (hash functions, sizes, moduli, non-empty data that fit), keys, secrets, generator positions, growth policies of std::vector and patterns of refused allocations", "why_tests_cant": "any of an unbounded number of allocations of a run can be the one that fails; tests do not inject failures", "anchors": ["src/test/eopsisimul.cpp:main", "src/libeopsi/hashbuckets.hpp:HashBuckets::HashBuckets", "src/libeopsi/eopsiclient.cpp:EOPSIClient::setRawData", "src/libeopsi/eopsiclient.cpp:EOPSIClient::receive", "src/libeopsi/eopsiserver.cpp:EOPSIServer::receive"]}
