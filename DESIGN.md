# Cryptokit: machine-checked model — design

Target: `xavierleroy/cryptokit` as found in `/repo` (OCaml `src/cryptokit.ml`,
`src/cryptokitBignum.ml`; C primitives and stubs `src/*.c`).  Nothing was built
or run; the model was written by reading the sources.  Prover: Coq 8.16.1,
files in `rocq/theories`, logical prefix `Verif`.

## 1. Modelling conventions

* **Bytes** are `Z`, with the predicate `byte_ok b := 0 <= b < 256`.  Machine
  words are `Z` with explicit reduction modulo 2^32 / 2^64.  OCaml `int`s are
  `Z`; where wrap-around could matter (`ensure_capacity`, `used + len`) the
  63-bit wrap is written in the model (`wrap63`).
* **Outcomes** (`out A`): `Ret a | Raise e | Undef | Hang`.  `Undef` is
  undefined behaviour (unchecked C external with an out-of-range offset).
  `Hang` is loop-fuel exhaustion; it is never identified with a normal result.
* **Objects**: an OCaml object is a record of its instance variables; a method
  is `state -> args -> state * out result`.  The state after an exception is
  kept, so a history may go on after a caught exception.
* `Bytes.create n` is an oracle `fresh : Z -> list Z` about which only the
  length is known.
* `Bytes.blit`, `Bytes.get`, ... raise `Invalid_argument` exactly as the
  standard library documents.
* Writing into a mutable array returns the new array.  Methods of block
  ciphers read `src` completely before the first write to `dst` (or copy
  it first), so passing `src` by value is exact even if `src == dst`.
* C tables are written in the model files that use them (`AesModel.v`,
  `DesModel.v`, `BlowfishModel.v`, ...), copied from `/repo/src/*.c` by a script
  (the one for RIPEMD-160 is `rocq/gen/gen_ripemd.py`).  The specification side never uses them:
  the AES tables are compared with GF(2^8) arithmetic, the DES ones with the
  FIPS 46-3 tables, Blowfish's with digits of pi computed in Coq, the SHA-2 constants
  with roots of primes.
* Specifications (FIPS, RFC, SP 800-38) live in `Spec*.v` files that import no
  model file.
* Property theorems live in `Props*.v`; they are closed by `exact lemma` and
  followed by `Print Assumptions`.

## 2. Trusted base

### 2.1 Kernel and axioms

* Coq 8.16.1's kernel, including `vm_compute` (used for finite sweeps over tables
  and for the examples).  `coqchk` rechecks everything without the VM.
* No axiom, parameter, admitted proof or typing-flag change.  `Print Assumptions`
  follows every theorem of every `Props*.v` file, and prints "Closed under the
  global context" for each of them: no axiom of the standard library is used either.
* `coqchk -o` and `vcheck` list seven names `Coq.ssr.ssrunder.Under_rel.*`.  They belong to a
  library file that the standard library loads (through `lia`); no theorem here depends on them.
* Quantities that the environment decides are universally quantified
  arguments of the theorems (Section variables, discharged): `fresh` (contents of uninitialised
  buffers), `sched` (short reads), `ge`, `rd` (system and hardware generators), `nextprime`, the zlib
  functions, the MD5 functions of the OCaml runtime, the collector's decisions in C67.

### 2.2 Code that is modelled

| source | model | remarks |
|---|---|---|
| `cryptokit.ml` 18-60 | `MiscModel`, `MacModel` | seq_equal, xor, shl1, wipe |
| 60-230 buffered_output, transform_string, transform_channel, compose | `BufOutModel`, `TransformModel` | |
| 230-470 hash_string, hash_channel, combinators, auth_* | `HashModel`, `AuthModel` | |
| 480-690 Block primitives | `CipherModel`, `AesModel`, `AesniModel`, `DesModel`, `BlowfishModel` | |
| 690-1000 modes, Block.cipher*, mac, cmac | `BlockModel`, `MacModel` | |
| 1000-1065 Stream | `StreamModel`, `AliasModel` | |
| 1065-1405 Hash | `ShaModel`, `MdModel`, `KeccakModel`, `RipemdModel`, `Blake2Model`, `Blake3Model`, `Md5Model` | |
| 1405-1535 MAC | `MacModel`, `SipModel` | |
| 1535-1810 Cipher, AEAD | `CipherModel`, `AeadModel` | |
| 1813-1951 Random | `RngModel`, `SourcesModel`; seeds as places of a memory, `RngMemModel` | |
| 1955-2236 RSA, Paillier, DH, `cryptokitBignum.ml` | `BnModel`, `PkModel`; over a memory, with erasures, `BnHeapModel` (1955-2220) and `BnHeapDhModel` (2196-2206) | |
| 2240-2488 Base64, Hexa | `EncModel` | |
| 2490-2623 Zlib, `stubs-zlib.c` | `ZlibModel` | zlib an oracle |
| `rijndael-alg-fst.c`, `aesni.c`, `d3des.c`, `blowfish.c`, `arcfour.c`, `chacha20.c`, `sha1.c`, `sha256.c`, `sha512.c`, `keccak.c`, `ripemd160.c`, `blake2.c`, `blake3.c`, `blake3_portable.c`, `siphash.c`, `poly1305-donna*.h`, `ghash.c`, `pclmul.c` | the file of the same name | |
| `stubs-*.c` | with the function called; `PlatformModel` for what depends on the machine; `GcModel` for their use of the heap | |

### 2.3 Code that is not modelled, and simplifications

* The OCaml compiler, runtime and collector (except the small model of C67), the C compiler.
* GMP/ZArith: `Z.to_bits` (whole 64-bit limbs), `Z.of_bits`, `Z.powm_sec` (refuses non-positive exponents
  and even moduli), `Z.invert`, `Z.rem`, `Z.numbits` are written from ZArith's documentation and C code; `Z.nextprime` is an
  oracle only assumed to return primes (it is probabilistic in reality).
* zlib, the MD5 code of the OCaml runtime, `getentropy`, RDRAND, devices: arbitrary functions.
* x86 intrinsics: AES-NI by the FIPS 197 functions as in Intel's manual; PCLMULQDQ and the SSE shifts on 128-bit numbers.
* The functions of Windows that the generator calls (`stubs-rng.c` 53-93); they are arbitrary in C92, under the assumptions `gen_ok` and `pick_ok` of `WinRng.v`.
* The BLAKE3 variants for SSE/AVX/NEON: `src/dune` disables them.
* 32-bit platforms (OCaml ints have 63 bits), except for the output buffer, which is treated for any width in C108. Big-endian machines and 64-bit systems with a 32-bit `long` are treated in C91
  (`PlatformModel`, `XorPlatformModel`), for all the code that has `ARCH_BIG_ENDIAN` branches or lengths of type `long`, except
  zlib; the other models have a 64-bit `long`.
* `Out_of_memory`, `Stack_overflow`, asynchronous exceptions, threads.
* Arguments are lists, so source and destination are separate. Where they can share memory this is treated for the stream
  ciphers (C80), `xor_bytes` and blits (C65), the public-key functions (C85, C86), and the block ciphers and modes (C88, which
  proves that the list model is exact for them). In C88 a C function is one load of the block and then byte stores.
* Strings are shorter than `Sys.max_string_length` = 2^57 - 9 bytes; the RSA/Paillier/DH theorems bound sizes by 2^50 bits.
* `wipe` of an output buffer clears the current buffer only, as in the code; the buffers dropped when it grew are in the
  model of C87 (`BufDropModel`) and in no other. The subkeys k1, k2 of `cmac` are part of the state of the model object, and `wipe` erases them (C83).
* Poly1305: the arithmetic is parametrised by `w n x`, the reduction of a sum or product to n bits; C40 holds for every `w`
  that is right on values that fit, which is how absence of overflow is expressed.
* Definitions cite the lines they model; places where a loop over an array is written as a fold or
  a recursion on the remaining input say so.

## 3. Properties: what is modelled, how it is proved

Status and exact theorem names: `MANIFEST.json`.  `_partial` theorems prove part of the statement, `_refuted` ones show that it
is false of the model (and, as far as the model is faithful, of the code).

| id | model | proof |
|----|-------|-------|
| C01 | `buffered_output` with concrete buffer, cursors | refinement to a queue, induction over histories |
| C02 | `ensure_capacity` with 63-bit ints | invariant; loop termination by doubling |
| C03 | `Stream.cipher`/`Block.cipher` put_substring | case analysis; hang witness if false |
| C04 | `Block.cipher` | refinement to (pending input, output) machine |
| C05 | abstract transforms (record of methods over any state) | bisimulation |
| C06, C07 | loops over a channel oracle giving short reads | induction on remaining length |
| C08 | mode classes over any block function | induction over blocks against SP 800-38A spec |
| C09, C10 | Cipher = modes + Block.cipher + padding | corollary of C04, C08 and inverse lemmas |
| C11, C12 | Padding objects | list reasoning |
| C13, C14 | `increment_counter`, `ctr` | base-256 value of lists; induction on steps |
| C15, C16 | constructors (ciphers, streams, AEAD, MAC), transform bounds checks | case analysis; MAC: MacCons, MacKeys |
| C17, C18 | `rijndael-alg-fst.c` with real tables | tables = GF(2^8) definitions by complete sweep; round-by-round refinement; inverse from FIPS structure |
| C19 | `aesni.c` on intrinsics semantics | refinement to FIPS 197 |
| C20, C21 | `d3des.c` with real tables | GF(2)-linear maps compared on a basis; Feistel inverse |
| C22 | `blowfish.c` | Feistel inverse |
| C23 | `arcfour.c` | invariant, swap = permutation |
| C24, C25 | `chacha20.c` | keystream position invariant |
| C26-C30 | hash C code | generic buffering lemma, then rounds equal to spec |
| C31, C32 | `blake2.c`, `blake3.c` | lazily buffered blocks; stack-of-subtrees invariant |
| C33, C34 | Hash/MAC classes | corollaries; refutation where `hash_size` is wrong |
| C35 | md5 stub with runtime oracle | refutation (length truncated to 32 bits) |
| C36-C38 | HMAC, cmac, mac | from the chunking lemmas |
| C39 | `siphash.c` | buffering lemma |
| C40 | poly1305-donna limbs | value-of-limbs invariant modulo 2^130-5, explicit overflow bounds |
| C41, C42 | `ghash.c`, `pclmul.c` | polynomial arithmetic over GF(2) |
| C43-C46 | AEAD classes | refinement to SP 800-38D / RFC 8439 |
| C47 | transform_then_hash etc. | over any transform (compositions included) and any hash; [auth_implements] and [auth_lawful] (Auth.v) carry a flag telling whether the exception is determined |
| C48-C50 | Random | stream position invariant; short-read schedule oracle.  C49 as stated speaks of seeds of 16, 24 or 32 bytes; the code accepts every seed of 16 bytes or more and uses the first 16: the theorem says that |
| C51 | bignum conversions | base-256 value; refutation for unaligned sizes |
| C52-C54 | RSA | Fermat/CRT number theory |
| C55, C56 | Paillier | binomial modulo n^2 |
| C57, C58 | DH | power laws, induction |
| C59-C62 | Base64, Hexa | refinement to functional codec, induction |
| C63, C64 | seq_equal (instrumented) | induction |
| C65 | caml_xor_string | word-wise = byte-wise |
| C66 | wipe methods of every class | safety: invariant over all sequences of calls (`SpecWipe`); erasure: two objects with different keys become equal; refutations for AES, SHA-3, BLAKE3, GCM, AES-CTR generator, HMAC |
| C67 | tiny moving-GC heap model of stubs | refutation for unrooted stubs |
| C68 | Zlib wrapper over an oracle | induction over the oracle's schedule |
| C69 | `ctr` with its exhaustion test | exact number of blocks accepted; refutation (one block less than fits) |
| C70 | DES key schedule and the DES / triple-DES / final-triple-DES constructors | equality of the objects built from keys equal up to parity bits; EDE collapse via D∘E = id |
| C71 | the two size methods (BlockSizes), all transforms of C05 | induction over compositions; exact outcome of each cipher by length; refuted for compositions and for the empty message with padding |
| C72 | `flush` of the block ciphers, any history without finish | relation between runs with and without flushes; refuted for padded decryption flushed at the very end |
| C73 | keystream modes, GCM, ChaCha20-Poly1305 | one keystream for all messages, from the mode and AEAD specs; xor of two ciphertexts |
| C74 | the strings hashed by GHASH and Poly1305 | tags as functions of `ghash_input`/`poly_input` (independent encodings); injectivity by the length fields and the padding |
| C75 | add_substring of every hash class and of class mac with arbitrary integers | case analysis over the library's hashes (`checked_hash`); the CBC-MACs by the loop of add_substring; refuted for them: negative lengths are accepted, and the state changes before the exception |
| C76 | Bn.random and DH.private_secret over any generator | the value as `draw` of the generator's string (SpecRandom.v); count of the preimages by induction on the number of bytes |
| C77 | class hmac over each hash | equality of the HMAC spec on the two keys, through the refinement of C32 |
| C78 | DH.derive_key with the decimal counter | closed form by blocks (`derive_key_dec`); refutation of SHA-1 by computation |
| C79 | the functions that take a generator, with class no_rng | evaluation of the first call to the generator; `raises` = the exception, state unchanged |
| C80 | the loops of arcfour.c and chacha20.c on a memory Z -> Z, and the range tests of the two classes | simulation of the byte loop by the list functions of C23 and C25 under `no_forward_overlap`, induction on the calls; refuted for a destination that begins inside the source |
| C81 | the constructors of the generators, the test of RDRAND, the choice made by secure_rng, over a machine whose answers are arbitrary functions | induction on the retries and on the requests, from the lemmas of C50 |
| C82 | every class, `compose`, `transform_then_hash`, `transform_and_hash`, GCM, ChaCha20-Poly1305, Base64, hexadecimal | invariants of each class over all calls; induction on the structure of the combination (`lib_tr`, `lib_h`, `lib_auth` in `SpecWipe2`); refuted for AES and SHA-3 after wipe (C66) and for ChaCha20-Poly1305 decryption with an invalid range |
| C83 | the wipe methods of the same classes; CMAC with its subkeys in the state | two objects, any two histories: the states after wipe are equal; refuted for zlib (the stream is not erased), HMAC keys and GCM (C66) |
| C84 | the functions of cryptokit.ml 164-316 | induction on the reading loop: the object is reached by calls other than wipe, then wipe; refuted when an exception is raised |
| C85 | `BnHeapModel`, `BnHeapDhModel`: `cryptokitBignum.ml` and cryptokit.ml 1955-2220 over a heap of strings and numbers; ZArith returns a new number, an immediate integer, or any argument of the right value (oracle `share`) | each function simulates the one of `BnModel`/`PkModel` (invariant `own`: the blocks made by the function, which are disjoint from the caller's); then C52-C57 give the sessions |
| C86 | the same; `caml_wipe_z`, `wipe_string` | the invariant lists the blocks not erased; proved for RSA.encrypt, RSA.decrypt, wipe_key; refuted for the others, with exact lists of what may remain |
| C87 | `BufDropModel`: `buffered_output` with the list of all arrays it has allocated, and the class `cipher` on top | simulation with the model without the list; invariant: an array dropped by ensure_capacity stays as it is, and begins at obeg with the pending output; refuted by AES-CBC |
| C88 | `InPlaceModel`: the transform methods over a memory of arrays, byte stores one at a time | simulation of the list model by the memory model for each cipher and mode, by induction over the stack of modes and the calls; the sweep over n blocks by induction |
| C89 | the models of C59-C62, C68 and the ciphers and hashes, run on after exceptions (`w_run`) | the simulation of the transducers extended to the steps that raise; induction over the calls; for the low 8 bits, cases on the constructors of the library |
| C90 | the generators of C48 and C49 with seeds and arrays that are places of a memory; wipe writes to the seed string as the code does (`RngMemModel.v`) | refinement of a memory with a list of streams and positions, from the theorems of C48 and C49; the effect of the wipes by induction on the program.  Refuted: the wipe of one generator puts zeros in the caller's seed string, and later generators made from it are predictable |
| C91 | the code under `#ifdef ARCH_BIG_ENDIAN` and the lengths of type `long`/`unsigned long`, with the byte order and the width of `long` as parameters (`PlatformModel.v`, `XorPlatformModel.v`) | loads and stores equal to those of C26, C30, C24, C22 in both orders; simulation of histories, the length of each piece reduced to the width of `long`. Refuted for a 32-bit `long` (64-bit Windows): 2^32 bytes are hashed as nothing, SHA-384/512 write a wrong length from 2^29 bytes on, ARCFOUR and xor_bytes leave the destination as it was from 2^31 bytes on |
| C92 | class system_rng over CryptAcquireContext, CryptGenRandom and CryptReleaseContext, which are arbitrary: the handles are chosen by the system among those not in use, requests may fail (`WinRngModel.v`) | case analysis of one request; for programs an invariant (open generators have handles in use, all different). Refuted: the length is converted to 32 bits, so a request for 2^32 bytes succeeds and writes nothing; a second wipe can close the generator that was given the same handle |
| C93 | the states of the objects as they are in the models of the classes; `SpecZero.v` lists, for each class, every buffer and context | `WipeZero.v`: from any state, wipe gives a state of zeros; induction on compositions. For AES-GCM `C93_gcm_partial` says which parts are zero (key schedule, pending input, output) and which stay (counter, scratch block, GHASH state, length; see C66_gcm_refuted); outside are also the key kept by HMAC (C66_hmac_refuted) and the key and counter of pseudo_rng_aes_ctr (C66_rng_not_erased) |
| C94 | nothing new: the decryption object of ChaCha20-Poly1305 (`AeadModel.v`) on 64-bit and 32-bit Poly1305; `SpecForge.v`: acceptance, and the number of blocks | `Forge.v`: acceptance implies the tag of RFC 8439 (`AeadApi.v`), equality of the two differences of polynomials, of which `Roots.v` bounds the roots in a ring with no zero divisors (`PolyForge.v`); 2^130-5 is prime by Pocklington's theorem, proved in `Prime1305.v`; the difference of two tags modulo 2^128 comes from at most 8 elements of the field |
| C95 | nothing new: the decryption object of AES-GCM over every implementation of AES and of GHASH | as C94, in GF(2^128), which `GfField.v` proves to have no zero divisors: the field is built as a ring of words under the multiplication of `SpecGhash.v`, and Frobenius minus the identity is shown to have a kernel of two elements by exhibiting a left inverse (Berlekamp) |
| C96 | nothing new: the hash objects compute the functions of the standards (C26-C32); `SpecCollide.v`, `SpecCollide2.v`: the calls of the compression function made for a message | `Collide.v`: walking back from the ends of two iterations with the same result gives a collision, or one is the end of the other; `MdCollide.v`, `SpongeCollide.v`, `Blake2Collide.v`: the paddings are injective and (but for SHA-3) none is the end of another; `Blake3Collide.v`: induction on the two trees. Stated as: digests differ, or an explicit collision among the calls made (the existence of collisions in general being trivial) |
| C97 | HMAC objects (C36); `SpecCollide2.v`: the two strings hashed | `HmacCollide.v`: injectivity of the key block and of the two strings. Refuted for keys of different lengths: C97_keys_refuted |
| C98 | `keccak.c` (C29); `SpecSponge.v`: inner and output collisions of a sponge | `KeccakPerm.v`: theta is injective because the polynomial 1 + x + x^4 z has order 192 (six squarings bring z to 1), chi row by row, rho, pi, iota; `SpongeInner.v`: from the collisions of C96 to inner or output collisions, and back; existence of inner collisions by the pigeonhole principle, as the case for the converse |
| C99 | classes `mac`, `cmac`, `mac_final_triple` (C37, C38), any block cipher that satisfies C17-C22 | `MacCollide.v`: chaining is injective in the state and in one block because the cipher is; extension by xoring the first block of the second message with the MAC of the first |
| C100 | the six functions, over the classes of C27-C29, C31, C32 | `DigestSize.v`: case analysis on the size, then C27-C32 and the lengths of the digests of the standards |
| C101 | Blowfish and ARCFOUR key set-up, triple-DES classes and final-triple-DES MAC, HMAC | `SameKey.v`: the key is read only through key[i mod length]; cancellation D∘E; equality of the padded HMAC keys |
| C102 | `d3des.c`, DES and triple-DES classes | `DesInvert.v`: the tables only move bits, the two complements cancel before the S boxes; weak keys: the cooked schedules are equal |
| C103 | chaining mode classes, `make_block_cipher` without padding | `Spread.v`: the block equations of C08–C12 read at one position; the CFB shift register holds only the last r chunks |
| C104 | chaining mode classes, `make_block_cipher` without padding, ChaCha20 | `Resume.v`, `ResumeStream.v`: the state after some blocks is the state an object starts in with the IV `next_iv`; CTR: the remaining room has no effect on the output |
| C105 | `buffered_output` with a caller that writes into the array `get_substring` returned | `Lent.v`: simulation with the queue of C01 that does not look at the array while nothing is pending; late writes and reads refuted |
| C106 | the reference to the block cipher kept by modes, `cipher*`, `mac*`, `cmac`: one shared place instead of a field (`SharedModel.v`) | `Shared.v`: every call except wipe leaves the field unchanged, wipe wipes it; induction on the program. Wipe by another object and sharing of a chaining mode refuted |
| C107 | class `compose`, twice, in both groupings | `Assoc.v`: by C05 for messages; for calls, a bisimulation between the two groupings of arbitrary transforms; different exceptions at finish: refuted |
| C108 | class `buffered_output` with the width of integers and `Sys.max_string_length` as parameters (`BufWordModel.v`) | `BufWord.v`: the invariant of C01 and C02 redone for any width; agreement with the 64-bit model; different results where only the 32-bit buffer is full: refuted |
| C109 | nothing new: the hash objects of C26 to C28 and C30; `SpecExtend.v`: the padding as a function of the length, the continuation as a function of the digest | `Extend.v`: the blocks of the padded longer message begin with those of the padded message, and the words of the state are read back from the digest |
| C110 | nothing new: the RSA functions of C52 | `PkRaw.v`: powers modulo n are multiplicative, and C52 |
| C111 | nothing new: `DH.shared_secret` of C57 | `PkRaw.v`: the result is the power modulo p for every string |
| C112 | nothing new: CBC decryption with padding of C08 and C10 | `Oracle.v`: the answer is a predicate on the decrypted block; induction over the bytes of a block from the last to the first (two queries exclude longer paddings), then over the blocks |
| C113 | nothing new: the modes of C08 | `Visible.v`: runs on a prefix, the inverse of each mode, and injectivity of the block cipher |
| C114 | nothing new: the generator of C49 | `Repeat.v`: the output is the stream of C49, whose blocks are values of an injective function at different counters |
| C115 | nothing new: the AEAD objects of C43 to C45 | `Early.v`: the machines of `GcmObj.v` and `ChaPoly.v` give their output for each piece of data, before the final step; the wrong tags are those of C44 |
| C116 | `LeakModel.v`: rijndaelEncrypt again, with the list of table entries read | `Leak.v`: it computes what the model of C17 does, and its reads are those of `SpecLeak.v`; the states of the first two rounds give the first two round keys, which contain the key. Not modelled: reads by the key setup and by decryption, size of cache lines, the order of reads in one C expression (left to right here) |
| C117 | nothing new: RSA of C52, C53 | `Crt.v`: the result is q h + m_q with any h below p, so it is right modulo q; wrong modulo n then means wrong modulo p |
| C118 | nothing new: the hashes and MACs of C33 to C38 | `Again.v`, `Blake2Again.v`, `SipAgain.v`, `MacAgain.v`, `TripleAgain.v`, `HmacAgain.v`: the context left by the final function is described exactly (state, buffer, counters); induction over the calls. A sponge is left as if it had absorbed the padded message and its last bytes; a MAC as if it were new with its value as IV. The full claim is refuted |
| C119 | nothing new: generators of C48 to C50 | `RngWipe.v`: invariant of the refill loop in which the block in progress is zero (position up to the next multiple of 16) |
| C120 | nothing new | `SpecSession.v`, `Session.v`, `SessionMd.v`, `SessionHmac.v`, `SessionTriple.v`, `SpecSipSession.v`, `SessionSip.v`, `SpecBlake2Session.v`, `SessionBlake2.v`: the lemmas of C118 on the context left by result (BLAKE3 unchanged, a sponge that has absorbed its padded message, a MAC with its value as IV); for SHA-1, SHA-2, RIPEMD-160, BLAKE2 and SipHash an invariant that separates what was compressed from the data counted by the length field; induction over the sequence. The full claim is refuted |
