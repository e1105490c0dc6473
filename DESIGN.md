# Design: a Rocq model of nitrogl/eo-psi

This file is written before the proofs and updated as the model grows.

## Approach

* Source modelled: `/repo/src/libeopsi` and the helper functions of `/repo/src/test`.
* Everything is an executable Gallina function over `Z`, `nat`, `list`, `option`, records. C++ outcomes are explicit:
  normal return, thrown `ProtocolException`, process termination `exit(c)`, library abort (NTL/GMP error), undefined behaviour (UB).
* Fixed-width arithmetic is written out (`mod 2^64` for `size_t`/`unsigned long`, `mod 2^8` for bytes); `ZZ`/`mpz_t` are `Z`.
* `ZZ_p` is `Z` reduced modulo the field prime; `ZZ_pX` is a normalised coefficient list.
* External code whose result the repository does not determine (SHA of Crypto++, rand(), NTL's random bits, NTL factoring) is a
  universally quantified function argument; where a theorem needs something of it, that specification is an explicit hypothesis of
  the theorem (and is shown satisfiable). External code with a determined result is modelled by a definition that follows its
  manual: GMP/NTL integer functions, ZZ_pX arithmetic, BuildFromRoots, interpolate, eval, std::map, std::set, qsort.
* Model files contain no proofs; property files contain only theorems closed by `exact`, with `Print Assumptions`.

## Plan per property

* **C01** blocks/bytes give the least sufficient number of blocks. Model `blocks`, `bytes_bits`, `bytes_zz` on Z with explicit mod 2^64. Proof: division lemmas + lia. Wrap witness by vm_compute.
* **C02** log2 is the floor of the base-2 logarithm. Loop as well-founded/fuelled recursion on the bit length; theorem excludes out-of-fuel. Induction.
* **C03** zeroPad is undone by the shift used when the intersection is read back. `zero_pad`, `num_twos`, shifts as in NTL (signed shift count). Proof by Z.shiftl lemmas, induction on trailing zeros.
* **C04** Zero fails the pad filter. Direct from the model of NumTwos (NTL: 0 for 0) and of the filter.
* **C05** zeroPadTo pads a number to exactly padsize-1 bits. Model with unsigned-int truncation; Z.log2 lemmas.
* **C06** Padding embeds plain elements injectively in the field. pad size on size_t, zero_pad, conv; arithmetic.
* **C07** A data width equal to the field width destroys the result. size_t wrap in pad size, signed shift; filter on every factor list gives [].
* **C08** StrInt::set(bytes) is the little-endian value of the bytes. Array model of StrInt::set (in-place tree summation); loop invariant: prefix sum of the cells constant.
* **C09** StrInt behaves as a natural number under every operation history. Operation datatype + fold; refinement to a natural number.
* **C10** StrInt::set with no bytes keeps stale data. Same model; exact value of set(_,0) and witness.
* **C11** StrInt::lsb is exact only for freshly set numbers below 2^64-1. Same model; exact residues and witnesses.
* **C12** StrInt::toBytes succeeds only for numbers of at most one bit. Model of mpz_export length and the buffer logic with explicit null/UB/exit outcomes.
* **C13** add puts an element at the end of bucket hash(e) mod k and nowhere else. Model of HashBuckets as record; case analysis.
* **C14** Under any history of add no bucket exceeds maxLoad and nothing is lost. Induction over the list of added elements; specification by `filter`.
* **C15** addToBucket bypasses the load limit and then add no longer enforces it. Case analysis + induction over later adds.
* **C16** conceal fills every bucket to exactly maxLoad, keeping the real elements. Model of conceal with the generator as a state machine; induction over the buckets.
* **C17** After conceal the table is sealed. Corollaries of 16 and of the model of add / blind.
* **C18** HashTable::size never counts anything. Invariant over an op datatype.
* **C19** Equal elements meet in equally numbered buckets of different tables. Corollary of 14 for two tables.
* **C20** Bucket access is bounds checked by process termination. Case analysis; Exception constructor model.
* **C21** MurmurHash3 reads past the end of the decimal string. Byte-level model of x64_128 with 64-bit wrap; memory beyond the string explicit. Injectivity of the block step.
* **C22** MurmurHash3 tail bytes are ignored. Same model; published algorithm as separate spec (fall-through switch); witnesses per residue by vm_compute.
* **C23** Short elements collide under MurmurHash3. Same model, decimal text length.
* **C24** MurmurHash3 is collision free on keys that differ in one block. Inverses of xor-shift, odd multiplication, rotation mod 2^64.
* **C25** ZZPRF::generate is a function of seed, index and bits. Buffer-level model of generate refined to a pure function.
* **C26** ZZPRF output has at most the requested number of bits. Pure function; byte/LE lemmas.
* **C27** Shorter ZZPRF outputs are truncations of longer ones. Prefix property of the digest chain.
* **C28** Distinct (seed, index) pairs feed distinct inputs to the hash. LE encoding injectivity.
* **C29** Omitting the bit size of ZZPRF is undefined behaviour. Explicit UB outcome for shift counts >= 32.
* **C30** ZZpPRF output is a field element and the requested width is capped by the field. Model of ZZpPRF on top.
* **C31** Seedless generation enumerates one stream. Op datatype, induction.
* **C32** cumulativeBenchmark adds up exactly the running time. State machine model; independent online accumulator as spec.
* **C33** A stopped chronometer is frozen until start or reset. Induction over ops.
* **C34** min and max bound every running interval and are attained. Invariants of the model + list minimum/maximum spec.
* **C35** Statistics including pauses are always zero. Case analysis.
* **C36** benchmark() with a single recorded time is undefined. Explicit UB outcome in the model.
* **C37** A named cursor denotes the last interval recorded under that name. Independent event-log specification.
* **C38** reset does not restore the initial state. Direct.
* **C39** Interpolation recovers the polynomial from its values. List polynomials mod p (executable), Newton interpolation as executed; own small theory of list polynomials over Z modulo a prime (no mathcomp).
* **C40** findIntersection returns exactly the padded roots. Factoring as function argument (the code takes a function pointer) with an independent factoring specification; the spec is shown satisfiable.
* **C41** The step-by-step and the one-shot intersection agree. Object-state model of ZZpPolynomials (null arrays, sizes).
* **C42** Mixing the step-by-step and one-shot calls is unsafe. Same model with UB outcomes.
* **C43** Blinding is undone exactly by the helper's polynomial values. Pure functions of the protocol core over matrices; ring identity mod p.
* **C44** The requester's polynomial has degree exactly 2*height. 39+43 through the bridge (degree, leading coefficient).
* **C45** No common element is missed (completeness). End-to-end: 14,16,40,43,44 composed.
* **C46** Every reported element is explained (exactness). End-to-end iff.
* **C47** A false positive needs one particular random coefficient. Field argument: unique solution of a linear equation mod p.
* **C48** The element 0 is never reported when padding is in use. From 40 and 4.
* **C49** Blinding is a one-time pad on the outsourced matrix. Bijection z -> a+z mod p per cell.
* **C50** PRF positions are never reused inside a computation. Index lists NoDup by arithmetic.
* **C51** The cloud request survives its byte encoding. Byte-buffer model of encode/decode with uninitialised bytes.
* **C52** The helper reads exactly three bytes of the requester's secret. Byte-buffer model of the request.
* **C53** Only authorised message kinds are accepted. World model (parties, messages, heap) with receive; case analysis.
* **C54** Messages from strangers: servers refuse, clients crash. World model.
* **C55** Self-messages and null messages are refused. World model.
* **C56** authenticate is a last-writer-wins directory that never contains oneself. Directory as ordered map, induction over calls.
* **C57** The server uses the latest data outsourced by each client. World model, induction over messages.
* **C58** A computation request before both outsourced is undefined behaviour. World model with null stored data as UB.
* **C59** A protocol run cannot be repeated. World model with heap lifetimes.
* **C60** Message cascades are bounded. Fuelled receive: never out of fuel with fuel 4.
* **C61** The order of t and q does not matter. World model.
* **C62** The requested thread count does not change the outsourced data. Model of blind takes nThreads.
* **C63** All parties agree on the evaluation points. Party state model with cached unknowns.
* **C64** The simulator's reference intersection is correct for duplicate-free inputs only. qsort by insertion (the sorted array is unique); two-pass scan modelled literally.
* **C65** The simulator's verdict is set equality with equal counts. Sets modelled as sorted duplicate-free lists.
* **C66** randomData yields n distinct sorted values or never returns. Fuelled draw loop over a random stream.
* **C67** printStats. Loop over the buckets as in the code; compared with the list minimum/maximum and their first positions.
* **C68** variance. Same state machine as C32-C38; compared with the sum of squared deviations of the running intervals.
* **C69** lowered degree. Model of getUnknowns' cache and of blind; the cells beyond the new degree are computed.
* **C70** end-to-end. The message layer (world of parties, messages, arrays) composed with the protocol computations.
* **C71** simulator verdict. main of eopsisimul composed of option parsing, data generation, the run of C70, the reference intersection and the comparison.
* **C72** simulator options and data. Induction over the option list and over the draws.
* **C73** conversions to vec_ZZ_p. The copy loops over arrays with bounds; loop invariant on the copied prefix.
* **C74-C77** hash objects. A heap of byte arrays and Crypto++ objects; hash() writes the object's buffer. Induction over call histories; decimal text specified by value and digits.
* **C78** storage of generators. Ownership invariant over the same heap (the live blocks beyond the initial heap are exactly the object's pointers); deleted blocks stay deleted.
* **C79-C81** cherpars. Doubles as reals (standard library Reals). Chernoff's bound proved by counting assignments: generating function of a bucket's load, Markov, union bound.
- C82: PolyModel/EopsiModel with arbitrary routines; the call with (canzass, berlekamp) equals the call in which both are the named one.
- C83: EopsiModel/WorldModel setters; induction over the sequence of calls; the ZZpPRF created by the client's constructor is never touched by setFieldsize (finding).
- C84: GroupSpec (a driver for one server and n clients over the World model) with an invariant over all parties, messages and blocks (GroupProofs: authentication of all pairs, outsourcing, one request as in C70), then induction over the list of requests; the failing second request from the same invariant (the q pointer of a used client is freed).
- C85: WorldModel draw_key; induction over the number of draws.
- C86: WorldModel messages; induction over the calls.
- C87: order invariant of the directories (std::map) over all programs, and inversion of a helper's delivery.
- C88: WorldModel setRawData; inversion of a server's delivery.
- C89: `murmur_hash` with its truncation argument; the reads of `x64_128` are bounded by its length argument (MurmurTrunc); reading inside the text is characterised exactly.
- C90: histories of calls on a ZZPRF (`run_prf`): the auto index is the number of `generate()` calls, by induction over the history; the auto seed is drawn at the first seedless call (PRFNext).
* **C91** life of a hash object. ShaFlavour: histories of calls and flavour changes on the heap of ShaModel, ownership invariant.
* **C92** printStats figures. FilesModel.printStats in exact rationals, compared with mean and variance of the list of sizes.
* **C93** zzrndgen. Options as a list, loop over PRFModel.generate_auto, file as a list of characters; loop invariant on the text.
* **C94** hbtest. Stream extraction of size_t and ZZ over the characters, then C14; the file is specified by `is_number_file`.
* **C95** zzrndgen then hbtest: composition of C93 and C94.
* **C96**, **C97** polyfact. Options as a list, the prime found by NTL as a function, the clock as a sequence of readings; loop invariant
  over the experiments; the chronometers via the histories of C32-C35.
* **C98**, **C99** bptest. Same, composed from the lemmas about hash tables, concealment and evaluation; the seven laps via C34.
* **C100** from C98 and uniqueness of interpolation.
* **C101**-**C103** the chronometers of findIntersection, the parties and the simulator, as sequences of SimpleBenchmark calls over any
  sequence of clock readings; from the histories of C32-C35.
* **C104** the stream extractors over `layout`, an inductive description of words and blanks; C94 becomes a special case.
* **C105** the destructor of the client over the worlds of WorldModel; "freed stays freed" as an invariant of every operation and delivery; the server's reads in computeTOrQ.
* **C106** the simulator's clean-up run on the final world of C70.
* **C107** the same extractors on texts without a number where one is expected.
* **C108** `receive` on worlds whose message has a null, deleted, unterminated or short payload, for every accepted sender.
* **C109** the loop bounds of the branch for several threads, as a statement about the rows of the result; the branch is dead code.
* **C110** the rows as a function of the drawn values (from the cells of computeTOrQ and delegationOutput); the bijection is constructed: split off the
  common factor, divide wA by b (the rest of the requester's polynomial), replace the remainder using an inverse of a' modulo b, correct wB and the masks.
  Polynomials modulo p as a setoid ring. The values of the real stream are pseudo-random, not uniform: the theorem is about the function of the drawn values.
* **C111** from the cells of blind; equal values at more points than the degree give equal polynomials, hence (unique roots) the same elements.
* **C112** bptest (and hbtest) on files without numbers where some are expected, with fewer numbers than announced, or with another layout: the extractors of C104/C107 on the same texts.

* **C113-C115** the figures computed in double (Flocq's `round` to nearest even with the format of binary64 after every operation): the average is one
  correctly rounded division of exact integers; the variance's error by an invariant of the loop (absolute for the chronometer, relative for the bucket
  sizes); the truncation of the deviations is exact because a double next to a quotient of small integers cannot cross an integer.
* **C116, C117** a heap of arrays and the calls that allocate, use and release them; invariant: the live arrays are a permutation of those owned by live
  objects plus the leaked ones. For copies: a shared array stays shared until one of the two owners releases it, and then the other cannot.
* **C118** the explicit rows of the run (C110's lemma); a monic polynomial of degree height vanishes at no more than height of the more than 2 height points,
  so enough values remain to interpolate (C39). **C119** the explicit final world of the simulator's program, whose helper part is a function of
  everything but the requester's data.
* **C120** the exception objects as records, histories of calls against "the last value given", read from the history alone; a small language of
  throw/try/catch over the class hierarchy, by induction on the nest of frames. **C121** the example program on every input text: the words of the input
  are consumed by induction; non-termination is "no amount of fuel is enough".

* **C122** counting over all coefficient vectors: a listing of the vectors proved complete and duplicate-free (CountSpec/CountProofs), one in p by
  fixing the constant coefficient (as in C47), a union bound over the L buckets and the at most p/2^pad field elements that carry the pad.
* **C123** the filler lists of `conceal` cut out of the stream by lengths; the same counting for dummies (at most h values of one dummy meet the other
  client's bucket, the other choices being fixed), and the union with C122 over the product of all choices.

* C124 (failing allocations): AllocModel runs the HashBuckets functions with an arbitrary oracle for the success of the n-th allocation and with bucket capacities; the calls are proved to refine HashBucketsModel (a call that throws amounts to not making it), with invariants on capacities and on live allocations; induction over the history and, for repeated conceal(), over the number of failures.
* C125 (generators when memory runs out): PrfAllocModel is the code of PRFModel with an oracle for every request of the generators (buffers, hash objects, a client's generator); the requests of a call depend only on the two buffer sizes, which are running maxima over the history; induction over the history.
* C126 (command lines): CmdModel goes from argv to the options of the program models with glibc's getopt (permuting, POSIXLY_CORRECT unset) and atol (strtol, clamped) and the access argv[op] with op = '?'; the specification is a relation between lines and option lists, proved total, deterministic and equal to the model by induction over the line; one generic lemma instantiated for the six option strings.
* C127 (shared hash tables): PoolModel has programs with any number of tables and of clients that refer to them; every other call of a client may change its core and generator arbitrarily. Invariant: a table spared from addToBucket stays within its load; after a load it is full, so every add exits (induction over the program). Prefilled tables: equality of the two programs, by splitting blind's loop.
* C128 (too few points): EopsiModel's session with any number D of points. The combined polynomial is divided by the product of the points (quotient of degree 2h-D with leading coefficient 2); the row polynomial is the remainder by uniqueness of interpolation; zero rows abort by the lemma behind C40.
* C129 (console): ConsoleModel has the functions of WorldModel in a writer monad, one constructor per output statement of receive(); erasing the lines gives WorldModel (proved), the run lemmas of WorldRun/WorldSim are replayed in the monad; ConsoleSpec has the words of the lines character by character.
* C130 (whole failure probability): an outcome is a placing (list of bucket indices of all elements, those of A first) with a vector of field elements (TotalSpec). For a placing a hash algorithm with that placing is constructed, so the counts of C123 apply for each uncrowded placing; crowded placings are counted by fixing the first or last entries (TotalCount) and bounded by C79; a run depends on the algorithm only through the places of its data (TotalProofs). No new model code.
* C131 (setRawData when memory runs out): BlindAllocModel is blind() with the oracle of AllocModel: the four guarded arrays, the table calls of AllocModel with the real fill-in generator, the copies operator[] makes; what remains is the code of EopsiModel.blind, so a call that returns is proved equal to it (blind_ok supplies the value). The states after an exception come from AllocProofs' cases; an invariant over any history of calls (a caller that catches) covers all reachable clients.
* C132 (an intersection when memory runs out): AskAllocModel puts the oracle of AllocModel around the new[] of receive, computeTOrQ, delegationOutput, intersect and findIntersection, in the order of the messages (WorldModel), with the code of EopsiModel and PolyModel between them. One relation between a guarded and an unguarded program (requests made, arrays kept) is closed under sequencing; each handler and any list of requests is an instance.
* C133 (a whole run when memory runs out): RunAllocModel puts the constructor of AllocModel, setRawData of BlindAllocModel and the messages of AskAllocModel together in the order of eopsisimul's main, with its one handler (std::bad_alloc in the set-up). Each stage is done or memory is short, by the case lemmas of C124, C131 and C132; the completed run is EopsiModel.session, so C45 gives the answer.

## Trusted base

1. Coq 8.16.1's kernel (and `vm_compute`, which is part of it).
2. `Print Assumptions` is called after every property theorem in the `Prop*.v` files. It answers "Closed under the global
   context" for each theorem except those of C79, C80 and C81 (file PropCherpars.v), C113-C115 (PropDouble.v), C126_cherpars and C126_every_line (PropCmd.v) and C130 (PropTotal.v), which use the standard library's real
   numbers: `ClassicalDedekindReals.sig_not_dec`, `ClassicalDedekindReals.sig_forall_dec`,
   `FunctionalExtensionality.functional_extensionality_dep`, `Classical_Prop.classic`. (C79_table_overflow alone is axiom free.)
   Beyond the standard library only Flocq is imported (Double*.v); it adds no axioms.
3. The correspondence between the C++ text and the definitions in the `*Model.v` files, which is by inspection: every definition
   cites the lines it models. No code was run.
4. The models of external code (GMP, NTL, Crypto++, libc, libstdc++) named above, taken from their manuals. In particular:
   NTL `NumTwos(0) = 0`, signed shifts, `BytesFromZZ` little-endian, `interpolate` raising an error for repeated points, `CanZass`
   and `berlekamp` raising an error for a non-monic argument and otherwise returning the monic irreducible factors with multiplicities.
   glibc's `getopt` (which permutes the words unless POSIXLY_CORRECT is set) and `atol` (which clamps) for the command lines (C126).
5. LP64 data model, little-endian bytes; `new` succeeds (except in C124, C125, C131, C132 and C133).

## What is modelled

| Part of the code | Model | Proofs |
| --- | --- | --- |
| ntlmiss.cpp | NtlMiss | NtlMissProofs, PropUtil |
| strint.cpp | StrIntModel | StrIntProofs, PropStrInt |
| hashbuckets.hpp, hashtable.hpp, markedvector.hpp, exception.cpp and outofboundex.cpp (fatality) | HashBucketsModel | HashBucketsProofs, PropHash |
| murmurhash3.cpp: MurmurHash3_x64_128 and MurmurHash3::hash | MurmurModel | MurmurProofs, MurmurTrunc, PropMurmur |
| prf.hpp, zzprf.cpp, zzpprf.cpp, shabyte.cpp | PRFModel | PRFProofs, PRFNext, PropPRF |
| sha.hpp, shastr.cpp, shazzp.cpp, shabyte.cpp, hashalgorithm.hpp; constructors and destructors of the generators | ShaModel | ShaProofs, ShaLife, ShaFlavour, PropSha |
| simplebm.cpp | BenchModel | BenchProofs, PropBench |
| zzppoly.cpp and the NTL functions it calls | PolyModel | PolyProofs, InterpProofs, FactorExists, PolyObjProofs, PropPoly |
| eopsiparty.cpp, eopsiclient.cpp, eopsiserver.cpp: the computations | EopsiModel | Eopsi*, PropEopsi |
| eopsimsg.cpp, messaging of the three party classes, the run of eopsisimul.cpp | WorldModel | World*, PropWorld, PropRun |
| eopsisimul.cpp: helpers and main | SimulModel | SimulProofs, PropSimul |
| cherpars.cpp | CherparsModel | CherparsProofs, PropCherpars |
| hashbuckets.hpp: printStats; zzrndgen.cpp, hbtest.cpp and the stream extractors they use | FilesModel | FilesStats, FilesProofs, PropFiles |
| polyfact.cpp, bptest.cpp | ToolsModel | ToolsProofs, ToolsBp, PropTools |
| the chronometers in zzppoly.cpp:199-239, eopsiclient.cpp:89-203 and 541-566, eopsiserver.cpp:45-89, eopsisimul.cpp:366-473 | TimingModel | TimingProofs, PropTiming |
| ~EOPSIClient, ~EOPSIServer, ~EOPSIParty; the deletes at the end of eopsisimul.cpp (of the arrays the protocol knows) | LifeModel | LifeProofs, PropLife |
| arrays of strint.cpp, hashbuckets.hpp, zzppoly.cpp; the implicit copy operations of these classes | StorageModel | StorageProofs, PropStorage |
| hashbuckets.hpp with allocations that fail (number object, buckets, reserve, push_back) | AllocModel | AllocProofs, PropAlloc |
| zzprf.cpp, zzpprf.cpp, sha.hpp setFlavour, eopsiclient.cpp:41-46 with requests for memory that are refused | PrfAllocModel | PrfAllocProofs, PropPrfAlloc |
| eopsiclient.cpp setRawData, blind with allocations that fail (arrays, buckets, bucket copies) | BlindAllocModel | BlindAllocProofs, PropBlindAlloc |
| receive (client request, cloud request, t and q), computeTOrQ, delegationOutput, intersect, findIntersection with arrays that are refused | AskAllocModel | AskAllocProofs, PropAskAlloc |
| eopsisimul.cpp main: set-up of the tables, setRawData of both clients, one intersection, with requests that are refused | RunAllocModel | PropRunAlloc |
| option loops of the six mains (getopt, atol, argv[op]) | CmdModel | CmdProofs, PropCmd |
| several clients referring to one HashBuckets | PoolModel | PoolProofs, PropPool |
| standard output of receive() (times and progress dots left out) | ConsoleModel | ConsoleProofs, ConsoleRun, PropConsole |
| exception.cpp, outofboundex.cpp, protocolex.h; C++ throw/try/catch over these classes | ExcModel | ExcProofs, PropExc |
| res/examples/randomzzgen.cpp | RandzzModel | RandzzProofs, PropRandzz |
| simplebm.cpp:254-299, hashbuckets.hpp:203-218 again, in doubles | DoubleModel | DoubleProofs, DoubleSizes, PropDouble |

PrivacySpec/PrivacyAlg/PrivacyProofs/PrivacyRun/PropPrivacy state and prove C110 and C111 over EopsiModel, CollusionProofs/PropCollude C118; PropHelper proves C119 over WorldModel.

GroupSpec/GroupProofs/PropGroup state and prove properties of any number of clients over WorldModel.

`Spec.v`, `*Spec.v` hold the independent specifications the theorems are stated with.

## What is not modelled

* Printing, the text layout of reports. Doubles in `printStats` and `SimpleBenchmark` are exact rationals in BenchModel and FilesModel (C34, C68, C92) and
  rounded in DoubleModel (C113-C115; no infinities or NaN, SSE2 arithmetic without extended precision); those of cherpars are reals.
* Destructors and copies other than those of the hash objects and generators (C78), the parties (C105, C106), StrInt, HashBuckets and ZZpPolynomials (C116, C117); failing allocations outside HashBuckets (C124), the generators (C125), setRawData (C131), the messages of an intersection (C132) and the run made of these (C133). A destroyed party keeps its index in the model: programs that go on using the object are run instead of being undefined.
* Concurrency: the only threads of the library (`polEval` in `blind`) are joined one after the other before the next starts, so
  the model is sequential. Nothing in the library is meant to be called from several threads.
* The x86 variants of MurmurHash3, which nothing calls.
* In WorldModel every client has its own hash table; tables shared by several clients are in PoolModel (C127), without messages.

## Findings (defects the theorems establish)

* C04/C48: the element 0 is dropped whenever padding is used.
* C07: data width = field width: the pad size wraps and every result is lost.
* C10, C11, C12: `StrInt::set` with no bytes keeps stale data; `lsb` wrong after arithmetic; `toBytes` exits for values above 1.
* C15: `addToBucket` defeats the load limit. C18: `size()` is always 0.
* C21-C23: `MurmurHash3::hash` reads 4 times the string's length (UB) and ignores the tail, so short elements collide.
* C29: `ZZPRF::generate` without a bit size is undefined behaviour; C31: seedless generation shares one stream.
* C35: the statistics with pauses are always 0. C36: `benchmark()` after one reading reads out of bounds. C38: `reset`.
* C42: `findIntersection(x, y, n)` after `interpolate` with the same n writes through a null pointer.
* C52: only three bytes of the secret are transmitted. C54: a message from an unknown sender crashes a client.
* C58: a request before both parties outsourced dereferences a null pointer. C59: a second run on the same objects uses freed memory.
* C69: lowering the degree after first use outsources unmasked values.
* C75: the pointers returned by `hash` all alias one buffer. C76: `SHA::name()` is undefined for SHA-256.
* C78: `ZZpPRF(modulo, &prf)` shares prf's storage: double delete when both are destroyed.
* C80: cherpars prints a table even if no load meets the target, and prints mu - 1 as mu. C81: without -n it is undefined.
- C83: `setFieldsize` on a client leaves its mask generator at the constructor's field size: after a change to a wider field the masks are too narrow to hide the evaluations.
- C84/C59: a client that has only helped once can never ask: the pointer to the q it sent (freed by the requester) makes it compute with freed memory.
- C87: with several servers the helper always asks the one with the least id, even if the data are stored with another one (null pointer dereference there).
- C88: an empty data set is silently ignored by `setRawData`; the null pointer is outsourced and dereferenced by the server later.
- C112: bptest does the same with its count; a minus sign before a count makes it huge; a file with fewer numbers than announced ends both programs with NTL's input error, whatever was read.
- C107: hbtest takes a missing or malformed count for 0 or uses an uninitialised variable.
- C108: no party looks at the length (or the null pointer) of a payload.
- C109: the switched-off multithreaded evaluation would skip buckets (ten buckets, four threads: two).
- C105: outsourced data are the client's own array: destroying the client (or constructing it anew) leaves the server with a dangling pointer.
- C92: `printStats` truncates every deviation to an integer before squaring (`size_t diff`), so the reported standard deviation is too small, and 0 for any distribution within 1 of the average.
- C93: `zzrndgen -n` with 1..9 divides by zero (progress dots: `i % (n/10)`). C94: `hbtest -k 0` divides by zero.
- C96: `polyfact -n` with 1..9 (without -q) divides by zero. C97: the standard deviation it prints divides by 2n-1 instead of n.
- C98/C100: bptest appends the unknowns to a vector that already has 2l+1 zeros and blinds only the first 2l+1 evaluations, so it
  masks values at 0 only and leaves the values at the real unknowns in clear. It also ends with `delete` on an array (undefined, not modelled).
- C101: the standard deviations printed for the phases of the intersection divide by 2n-1, not by the number n of buckets.
- C103: the time the simulator reports for the protocol includes computing the plain intersection and leaves out the blinding.
- C111: the masks depend on the secret and the position only, so a secret used for two data sets (as the constant secrets of eopsisimul.cpp are, from one execution to the next) lets the server see which buckets changed and the difference of their polynomials.
- C116: `HashBuckets::setHashAlgorithm` on a table that has an algorithm loses the previous number object (three allocations).
- C117: StrInt, HashBuckets and ZZpPolynomials have destructors but no copy operations: copying, assigning or passing one by value ends in a double delete.
- C118: the server and either client together recover all data of the other client; the helper is even sent the requester's secret.
- C120: "fatal" exceptions can never be caught (the process exits in the constructor), although exception.h speaks of catching them; setting the flag later has no effect.
- C121: randomzzgen loops for ever on input that is not a number (or ends early) and reads an uninitialised variable on empty input.
- C122: the result is wrong with probability up to L / 2^pad over the temporary key; with the pad of a few bits that a tight field leaves this is not negligible (C46_nonvacuous shows such a run).
- C124: an exception that leaves the constructor of HashBuckets (reserving room in the buckets) leaks the buckets and the number object; half of the allocations end the process with code 2, the others throw.
- C131: bad_alloc from a bucket that grows or is copied leaves setRawData (eopsisimul has no handler: the process terminates); then getBlindedData() is a matrix of zeros instead of null or the earlier result, three arrays are lost, and the data stay in the table: calling again adds them a second time, or exits with code 1 if a bucket they belong to had been filled up.
- C126: in all six programs an unknown option (or a missing argument) makes the program read argv[63] ('?' is 63), outside argv on any ordinary command line; with a longer one a word that has nothing to do with the fault is printed.
- C127: two clients constructed with one hash table: the second setRawData always ends the process with code 1.
- C128: nothing checks degree >= 2*height+1; with degree = 2*height the run ends normally and the common elements are lost unless they are evaluation points.
- C129: the helper writes the requester's secret and the temporary key to the standard output, and the server writes the key; with the server's stored data that is all of the requester's set.
