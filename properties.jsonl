{"id": "C01", "title": "Output buffer is a FIFO", "statement": "The bytes a transform produces are returned by get_string, get_substring, get_char and get_byte exactly once, unchanged and in production order; available_output always equals the number of bytes produced and not yet returned; get_char and get_byte raise End_of_file exactly when nothing is pending. The uninitialised contents of freshly created buffers never show up in the output.", "quantifier": "every finite history of output-producing and output-consuming calls, every buffer growth/compaction they cause, every content of fresh buffers", "why_tests_cant": "The buffer compacts, doubles and reuses stale memory depending on the whole history of calls; tests only sample a few histories.", "anchors": ["src/cryptokit.ml: buffered_output (319-370)"]}
{"id": "C02", "title": "Output buffer grows safely", "statement": "Making room for n more output bytes never loses pending output and leaves room for n bytes; it fails (Error Output_buffer_overflow) only when pending output plus n exceeds Sys.max_string_length, and it always terminates when pending output plus n is at most 2^61.", "quantifier": "every reachable buffer state and every request size representable as an OCaml int", "why_tests_cant": "The boundary cases need buffers of about 2^57 bytes and integers near 2^62, out of reach of a test.", "anchors": ["src/cryptokit.ml: buffered_output#ensure_capacity (325-349)"]}
{"id": "C03", "title": "put_substring with an invalid range terminates with Invalid_argument", "statement": "Calling put_substring with a range that is not within the given byte array raises Invalid_argument and does not change the output produced so far; it never reads outside the array and never runs forever.", "quantifier": "every transform class, every reachable state, every byte array and every pair of OCaml ints (offset, length)", "why_tests_cant": "Requires extreme integers where additions wrap around in 63-bit arithmetic.", "anchors": ["src/cryptokit.ml: Stream.cipher#put_substring (1036-1068)", "src/cryptokit.ml: Block.cipher#put_substring (770-834)", "src/cryptokit.ml: buffered_output#ensure_capacity (325-349)"]}
{"id": "C04", "title": "Block cipher transforms are chunking independent", "statement": "The bytes produced by a block cipher transform depend only on the concatenation of the bytes put into it and on whether it was flushed or finished, not on how they were split between put_substring, put_string, put_char and put_byte calls nor on when output is fetched.", "quantifier": "every block cipher, every key and IV, every input, every split into calls, every interleaving with get calls", "why_tests_cant": "The number of splits and interleavings is exponential in the length.", "anchors": ["src/cryptokit.ml: Block.cipher (770-834)"]}
{"id": "C05", "title": "compose is sequential composition", "statement": "compose tr1 tr2 behaves as: everything put goes to tr1, all output of tr1 goes to tr2, output is that of tr2; transform_string (compose tr1 tr2) s = transform_string tr2 (transform_string tr1 s), for any history of calls.", "quantifier": "all pairs of transforms (any state type, any behaviour), all histories", "why_tests_cant": "Quantifies over all transforms and interleavings.", "anchors": ["src/cryptokit.ml: compose (198-228)", "src/cryptokit.ml: transform_string (164-168)"]}
{"id": "C06", "title": "transform_channel transforms exactly the requested bytes", "statement": "transform_channel tr ~len ic oc reads exactly len bytes from ic (all of ic if len is absent), writes to oc exactly the bytes transform_string would return for these bytes, and raises End_of_file if ic is too short; this does not depend on how many bytes each input call returns.", "quantifier": "every transform whose output depends only on the bytes put (chunking independent), every channel content, every schedule of short reads, every len", "why_tests_cant": "Short reads depend on the operating system's schedule.", "anchors": ["src/cryptokit.ml: transform_channel (169-196)"]}
{"id": "C07", "title": "hash_channel hashes exactly the requested bytes", "statement": "hash_channel h ~len ic returns hash_string h of the first len bytes of ic (of all of ic if len is absent) and raises End_of_file if ic is too short, for any schedule of short reads.", "quantifier": "every chunking-independent hash, every channel content, every schedule of short reads, every len", "why_tests_cant": "Short reads depend on the operating system's schedule.", "anchors": ["src/cryptokit.ml: hash_channel (249-269)", "src/cryptokit.ml: hash_string (241-247)"]}
{"id": "C08", "title": "Chaining modes compute the standard modes", "statement": "With a block cipher E/D of block size b: ECB, CBC, CFB with n-byte segments, OFB with n-byte segments and CTR with an n-byte counter produce exactly the sequence of blocks NIST SP 800-38A defines from the IV (an omitted IV is all zero), for any number of blocks.", "quantifier": "every block function E on b-byte blocks, every b, every segment size 1..b, every IV of b bytes, every message (any number of segments)", "why_tests_cant": "State is carried from block to block over unbounded messages.", "anchors": ["src/cryptokit.ml: Block.cbc_encrypt (651)", "src/cryptokit.ml: Block.cbc_decrypt (665)", "src/cryptokit.ml: Block.cfb_encrypt (682)", "src/cryptokit.ml: Block.cfb_decrypt (701)", "src/cryptokit.ml: Block.ofb (720)", "src/cryptokit.ml: Block.ctr (742-766)", "src/cryptokit.ml: Block.make_initial_iv (644)"]}
{"id": "C09", "title": "Decryption inverts encryption in every mode (no padding)", "statement": "For every mode (ECB, CBC, CFB n, OFB n, CTR, CTR_N n), decrypting with the same key and IV what was encrypted gives back the message when its length is a multiple of the transform's block size; otherwise finish raises Wrong_data_length.", "quantifier": "every cipher whose decrypt function inverts its encrypt function, every IV, every message, every split into calls", "why_tests_cant": "Unbounded messages, keys and splits.", "anchors": ["src/cryptokit.ml: Cipher.make_block_cipher (1343-1406)", "src/cryptokit.ml: Block.cipher (770-834)"]}
{"id": "C10", "title": "Decryption inverts encryption in every mode (with padding)", "statement": "With either padding scheme, decrypting what was encrypted gives back the message, whatever its length, for every mode and block size the scheme supports.", "quantifier": "every cipher, mode, padding scheme, IV, message of any length, every split into calls", "why_tests_cant": "Unbounded messages, keys and splits.", "anchors": ["src/cryptokit.ml: Block.cipher_padded_encrypt (838)", "src/cryptokit.ml: Block.cipher_padded_decrypt (858)", "src/cryptokit.ml: Padding (440-486)"]}
{"id": "C11", "title": "PKCS-style padding: pad then strip, exact acceptance", "statement": "Padding.length: padding a partial block with u used bytes then stripping returns u; strip accepts exactly the blocks that end in n copies of byte n with 1 <= n <= block size, and raises Bad_padding on every other block without reading outside it.", "quantifier": "every block size 1..255, every block content, every number of used bytes", "why_tests_cant": "256^16 possible blocks; malformed padding is where oracle and out-of-bounds bugs live.", "anchors": ["src/cryptokit.ml: Padding.length (448-463)"]}
{"id": "C12", "title": "8000 padding: pad then strip, exact acceptance", "statement": "Padding._8000: padding then stripping returns the number of used bytes; strip accepts exactly the blocks of the form m 0x80 0x00*, and raises Bad_padding on every other block without reading outside it.", "quantifier": "every block size >= 1, every block content, every number of used bytes", "why_tests_cant": "256^16 possible blocks.", "anchors": ["src/cryptokit.ml: Padding._8000 (467-482)"]}
{"id": "C13", "title": "Counter increment is +1 modulo 2^(8n)", "statement": "Incrementing an n-byte big-endian counter field adds one modulo 2^(8n) to the field and leaves every other byte of the block unchanged.", "quantifier": "every block length, every field position and width, every content", "why_tests_cant": "256^16 states; carries propagate over any number of bytes.", "anchors": ["src/cryptokit.ml: Block.increment_counter (735-740)"]}
{"id": "C14", "title": "CTR mode never reuses a counter block", "statement": "In CTR mode with an n-byte counter, all counter blocks used for blocks delivered to the caller are pairwise distinct: Message_too_long is raised before any reuse, and continues to be raised if the caller carries on.", "quantifier": "every block size, counter width, IV, message length (up to 2^64 blocks), every continuation after the error", "why_tests_cant": "Needs up to 2^64 blocks.", "anchors": ["src/cryptokit.ml: Block.ctr (742-766)", "src/cryptokit.mli: Message_too_long"]}
{"id": "C15", "title": "Constructors validate key and IV sizes", "statement": "Cipher and MAC constructors raise Wrong_key_size exactly for key lengths not allowed by the cipher, and Wrong_IV_size exactly when the IV length differs from the block size (8 or 12 for ChaCha20); hence no primitive is ever run with a short key or IV.", "quantifier": "every key string and IV string, every optional counter value accepted by the interface", "why_tests_cant": "All lengths, and for ChaCha20 all 64-bit counters.", "anchors": ["src/cryptokit.ml: block ciphers (490-640)", "src/cryptokit.ml: Block.make_initial_iv (644)", "src/cryptokit.ml: Stream.arcfour (994)", "src/cryptokit.ml: Stream.chacha20 (1010-1032)", "src/cryptokit.ml: MAC (1441-1530)"]}
{"id": "C16", "title": "Single-block transforms stay in bounds", "statement": "A block_cipher object's transform method raises Invalid_argument when one of the ranges [src_off, src_off+blocksize) / [dst_off, dst_off+blocksize) is not inside its array, never accesses memory outside the arrays, and changes no byte of dst outside the destination range.", "quantifier": "every cipher and chaining mode, every pair of arrays, every pair of OCaml int offsets", "why_tests_cant": "Offsets range over 2^63 values; out-of-bounds reads usually do not crash a test.", "anchors": ["src/cryptokit.ml: block ciphers (490-640)", "src/cryptokit.ml: Block modes (651-766)"]}
{"id": "C17", "title": "AES encryption is FIPS 197 AES", "statement": "For every key of 16, 24 or 32 bytes and every block, the table-driven software AES (key schedule and rounds) computes the FIPS 197 cipher.", "quantifier": "all 2^128+2^192+2^256 keys and all 2^128 blocks", "why_tests_cant": "Key and block space cannot be enumerated.", "anchors": ["src/rijndael-alg-fst.c: rijndaelKeySetupEnc (728), rijndaelEncrypt (854)", "src/stubs-aes.c"]}
{"id": "C18", "title": "AES decryption inverts AES encryption", "statement": "For every key of 16, 24 or 32 bytes, AES decryption of the AES encryption of a block is that block and conversely.", "quantifier": "all keys, all blocks", "why_tests_cant": "Key and block space cannot be enumerated.", "anchors": ["src/rijndael-alg-fst.c: rijndaelKeySetupDec (814), rijndaelDecrypt (1035)", "src/stubs-aes.c"]}
{"id": "C19", "title": "AES-NI and software AES agree", "statement": "On machines with AES-NI the same key and block give the same result as the software implementation, for encryption and decryption.", "quantifier": "all keys, all blocks", "why_tests_cant": "Key and block space cannot be enumerated; test machines exercise only one of the two paths.", "anchors": ["src/aesni.c", "src/stubs-aes.c"]}
{"id": "C20", "title": "DES is FIPS 46-3 DES", "statement": "The DES implementation (key schedule by cookey, SP boxes, bit-twiddled initial/final permutations) computes the DES function defined by the FIPS 46-3 tables.", "quantifier": "all 2^64 keys and 2^64 blocks", "why_tests_cant": "Key and block space cannot be enumerated.", "anchors": ["src/d3des.c: d3des_cook_key, d3des_transform"]}
{"id": "C21", "title": "DES and triple DES decryption invert encryption", "statement": "For every key, single DES decryption inverts encryption; triple DES (2-key, 16 bytes, or 3-key, 24 bytes) is EDE, and its decryption inverts its encryption.", "quantifier": "all keys, all blocks", "why_tests_cant": "Key and block space cannot be enumerated.", "anchors": ["src/d3des.c", "src/cryptokit.ml: Block.des_*, triple_des_* (520-600)"]}
{"id": "C22", "title": "Blowfish decryption inverts encryption", "statement": "For every key of 4 to 56 bytes, Blowfish decryption inverts encryption, and encryption is the 16-round Feistel network with the key-dependent tables produced by the Blowfish key schedule.", "quantifier": "all keys, all blocks", "why_tests_cant": "Key and block space cannot be enumerated.", "anchors": ["src/blowfish.c: Blowfish_Encrypt, Blowfish_Decrypt, Blowfish_Init", "src/stubs-blowfish.c"]}
{"id": "C23", "title": "ARCFOUR is RC4 and its state stays a permutation", "statement": "The ARCFOUR stream cipher computes RC4 for every key of 1 to 256 bytes; at every time its table is a permutation of 0..255; the keystream does not depend on how data is split between calls; applying it twice from the same key gives back the data.", "quantifier": "all keys, all data, all splits", "why_tests_cant": "Unbounded histories.", "anchors": ["src/arcfour.c", "src/cryptokit.ml: Stream.arcfour (994-1008)"]}
{"id": "C24", "title": "ChaCha20 is ChaCha20, for any splitting", "statement": "The ChaCha20 stream cipher xors the data with the keystream blocks defined by RFC 8439 (12-byte IV) or by the original 64-bit-counter definition (8-byte IV), starting at the given counter, independently of how the data is split between calls.", "quantifier": "all keys of 16 or 32 bytes, IVs, counters, data and splits", "why_tests_cant": "Unbounded histories.", "anchors": ["src/chacha20.c", "src/stubs-chacha20.c", "src/cryptokit.ml: Stream.chacha20 (1010-1032)"]}
{"id": "C25", "title": "Stream cipher transforms are involutive", "statement": "Running the stream cipher transform with the same key (and IV, counter) on its own output returns the original data, for any splitting of both passes into calls.", "quantifier": "all stream ciphers, keys, data and splits", "why_tests_cant": "Unbounded histories and splits.", "anchors": ["src/cryptokit.ml: Stream.cipher (1036-1068)", "src/cryptokit.ml: Cipher.arcfour, Cipher.chacha20 (1343-1406)"]}
{"id": "C26", "title": "SHA-1 is FIPS 180-4 SHA-1", "statement": "The SHA-1 hash object returns the FIPS 180-4 digest of the concatenation of everything added, whatever the splitting.", "quantifier": "all messages shorter than 2^61 bytes, all splits", "why_tests_cant": "Unbounded messages; block-boundary and length-carry cases need huge inputs.", "anchors": ["src/sha1.c", "src/stubs-sha1.c", "src/cryptokit.ml: Hash.sha1"]}
{"id": "C27", "title": "SHA-224 and SHA-256 are FIPS 180-4", "statement": "The SHA-224 and SHA-256 hash objects return the FIPS 180-4 digest of the concatenation of everything added, whatever the splitting.", "quantifier": "all messages shorter than 2^61 bytes, all splits", "why_tests_cant": "Unbounded messages.", "anchors": ["src/sha256.c", "src/stubs-sha256.c", "src/cryptokit.ml: Hash.sha224, Hash.sha256"]}
{"id": "C28", "title": "SHA-384 and SHA-512 are FIPS 180-4", "statement": "The SHA-384, SHA-512 (and truncated SHA-512/224, SHA-512/256 if provided) hash objects return the FIPS 180-4 digest of the concatenation of everything added, whatever the splitting.", "quantifier": "all messages shorter than 2^61 bytes, all splits", "why_tests_cant": "Unbounded messages.", "anchors": ["src/sha512.c", "src/stubs-sha512.c", "src/cryptokit.ml: Hash.sha384, Hash.sha512"]}
{"id": "C29", "title": "SHA-3 and Keccak are the sponge of FIPS 202", "statement": "The SHA-3 (and original Keccak) hash objects return the sponge digest with the right domain padding of the concatenation of everything added, whatever the splitting, for each supported digest size.", "quantifier": "all messages, all splits, sizes 224/256/384/512", "why_tests_cant": "Unbounded messages.", "anchors": ["src/keccak.c", "src/stubs-sha3.c", "src/cryptokit.ml: Hash.sha3, Hash.keccak"]}
{"id": "C30", "title": "RIPEMD-160 is RIPEMD-160", "statement": "The RIPEMD-160 hash object returns the digest defined by Dobbertin, Bosselaers and Preneel of the concatenation of everything added, whatever the splitting.", "quantifier": "all messages shorter than 2^61 bytes, all splits", "why_tests_cant": "Unbounded messages.", "anchors": ["src/ripemd160.c", "src/stubs-ripemd160.c", "src/cryptokit.ml: Hash.ripemd160"]}
{"id": "C31", "title": "BLAKE2b and BLAKE2s are RFC 7693", "statement": "BLAKE2b and BLAKE2s hash and MAC objects return the RFC 7693 digest for the given digest size and key of the concatenation of everything added, whatever the splitting.", "quantifier": "all messages, keys, digest sizes and splits", "why_tests_cant": "Unbounded messages; the last-block rule depends on buffering.", "anchors": ["src/blake2.c", "src/stubs-blake2.c", "src/cryptokit.ml: Hash.blake2b, Hash.blake2s, MAC.blake2b, MAC.blake2s"]}
{"id": "C32", "title": "BLAKE3 computes the BLAKE3 tree", "statement": "BLAKE3 hash and MAC objects return the BLAKE3 tree hash (left-balanced binary tree over 1024-byte chunks) of the concatenation of everything added, whatever the splitting, and longer outputs extend shorter ones.", "quantifier": "all messages, keys, output sizes and splits", "why_tests_cant": "The lazily merged stack of subtrees depends on the history of call sizes.", "anchors": ["src/blake3.c", "src/blake3_portable.c", "src/blake3_dispatch.c", "src/cryptokit.ml: Hash.blake3 (1314)"]}
{"id": "C33", "title": "hash_size is the length of the digest", "statement": "For every hash and MAC object, result returns a string of exactly hash_size bytes.", "quantifier": "every hash and MAC class, every key and every message", "why_tests_cant": "Ranges over all messages; and it is part of the contract auth_check_transform_string relies on.", "anchors": ["src/cryptokit.ml: Hash (1076-1337)", "src/cryptokit.ml: MAC (1441-1530)", "src/cryptokit.mli: class type hash"]}
{"id": "C34", "title": "Hash and MAC objects are chunking independent", "statement": "The result of a hash or MAC object depends only on the concatenation of the bytes added, for any mix of add_substring, add_string, add_char and add_byte.", "quantifier": "every hash and MAC class, every message, every split", "why_tests_cant": "Exponentially many splits.", "anchors": ["src/cryptokit.ml: Hash (1076-1337)", "src/cryptokit.ml: mac (876-942)"]}
{"id": "C35", "title": "MD5 hashes all the bytes it is given", "statement": "Adding len bytes to an MD5 object feeds exactly these len bytes, in order, to the MD5 computation.", "quantifier": "every length up to Sys.max_string_length", "why_tests_cant": "Failing lengths are at least 4 GiB.", "anchors": ["src/stubs-md5.c: caml_md5_update", "src/cryptokit.ml: Hash.md5"]}
{"id": "C36", "title": "HMAC is RFC 2104", "statement": "For each hash H with block size B, the hmac object computes H((K0 xor opad) || H((K0 xor ipad) || m)), where K0 is the key padded to B bytes, hashed first if longer than B.", "quantifier": "every key (any length), every message, every split, every underlying hash", "why_tests_cant": "All key lengths and messages.", "anchors": ["src/cryptokit.ml: HMAC functor (1410-1437)"]}
{"id": "C37", "title": "CMAC is NIST SP 800-38B / RFC 4493", "statement": "The aes_cmac object computes CMAC: subkeys by doubling in GF(2^128), last complete block xored with K1, last incomplete block padded with 10* and xored with K2, including the empty message.", "quantifier": "every key, every message (any length), every split", "why_tests_cant": "All messages and splits; the last-block rule depends on buffering.", "anchors": ["src/cryptokit.ml: cmac (963-981)", "src/cryptokit.ml: shl1_bytes (34-41)", "src/cryptokit.ml: MAC.aes_cmac (1490)"]}
{"id": "C38", "title": "CBC-MACs are the last CBC block", "statement": "The mac object returns the last block of the CBC encryption (given IV, given padding) of the message; des_final_triple_des additionally decrypts and re-encrypts the last block; a message whose length is not a multiple of the block size is rejected (Wrong_data_length) if no padding is given.", "quantifier": "every key, IV, padding scheme, message and split", "why_tests_cant": "All messages and splits.", "anchors": ["src/cryptokit.ml: mac (876-942)", "src/cryptokit.ml: mac_final_triple (944)", "src/cryptokit.ml: MAC.des_final_triple_des (1478)"]}
{"id": "C39", "title": "SipHash is SipHash-2-4", "statement": "The siphash and siphash128 MAC objects compute the reference SipHash-2-4 with 64-bit and 128-bit output of the concatenation of everything added, for any splitting.", "quantifier": "every key, every message, every split", "why_tests_cant": "All messages and splits.", "anchors": ["src/siphash.c", "src/stubs-siphash.c", "src/cryptokit.ml: MAC.siphash (1505)"]}
{"id": "C40", "title": "Poly1305 computes the polynomial modulo 2^130-5", "statement": "The Poly1305 code (64-bit and 32-bit limb variants) computes the RFC 8439 tag of the concatenation of everything added, for any splitting; no intermediate limb sum or product overflows its machine word.", "quantifier": "every 32-byte key, every message, every split", "why_tests_cant": "Carry and overflow bugs need rare operand values among 2^256.", "anchors": ["src/poly1305-donna.c", "src/poly1305-donna-64.h", "src/poly1305-donna-32.h", "src/stubs-poly1305.c"]}
{"id": "C41", "title": "GHASH multiplication is multiplication in GF(2^128)", "statement": "The table-driven GHASH multiplication equals multiplication by the hash key in GF(2^128) with GCM's bit order, for every key and every operand.", "quantifier": "all 2^128 keys and 2^128 operands", "why_tests_cant": "Cannot be enumerated.", "anchors": ["src/ghash.c: ghash_init, ghash_mult"]}
{"id": "C42", "title": "PCLMUL and table GHASH agree", "statement": "On machines with PCLMULQDQ the multiplication gives the same result as the portable one.", "quantifier": "all keys and operands", "why_tests_cant": "Cannot be enumerated; test machines exercise only one of the two paths.", "anchors": ["src/pclmul.c: pclmul_mult", "src/ghash.c"]}
{"id": "C43", "title": "AES-GCM is NIST SP 800-38D", "statement": "aesgcm encryption returns the SP 800-38D ciphertext and 16-byte tag for the given key, IV (12 bytes or any other length), header and plaintext, whatever the splitting.", "quantifier": "every key, IV, header and plaintext up to the length limit, every split", "why_tests_cant": "All lengths and splits.", "anchors": ["src/cryptokit.ml: AEAD (1534-1719)"]}
{"id": "C44", "title": "AEAD decryption inverts encryption and authenticates", "statement": "Decrypting with the same key, IV and header a ciphertext produced by encryption returns the plaintext; decryption of any (ciphertext, tag) succeeds if and only if the tag equals the one computed for that ciphertext and header, and returns no plaintext otherwise.", "quantifier": "every key, IV, header, plaintext, every (possibly tampered) ciphertext and tag, every split", "why_tests_cant": "All inputs.", "anchors": ["src/cryptokit.ml: AEAD.aes_gcm_decrypt (1667)", "src/cryptokit.ml: AEAD.chacha20_poly1305_decrypt (1778)", "src/cryptokit.ml: auth_check_transform_string (305-315)"]}
{"id": "C45", "title": "ChaCha20-Poly1305 is RFC 8439", "statement": "chacha20_poly1305 encryption returns the RFC 8439 ciphertext and tag for the given key, IV, header and plaintext, whatever the splitting.", "quantifier": "every key, IV, header, plaintext up to the length limit, every split", "why_tests_cant": "All lengths and splits.", "anchors": ["src/cryptokit.ml: AEAD.chapoly (1723-1809)"]}
{"id": "C46", "title": "AEAD length limits prevent keystream reuse", "statement": "An AEAD encryption that does not raise Message_too_long never uses the same keystream block for two different purposes (two data blocks, or data and tag/key derivation).", "quantifier": "every key, IV and every message length accepted", "why_tests_cant": "Needs messages of 64 to 256 GiB.", "anchors": ["src/cryptokit.ml: AEAD.aes_gcm_encrypt (1616)", "src/cryptokit.ml: AEAD.chapoly_encrypt (1748-1776)"]}
{"id": "C47", "title": "Encrypt-then-hash combinators round trip", "statement": "transform_then_hash / transform_and_hash combined with auth_check_transform_string: checking and decoding the authenticated output of a genuine message returns the message; anything whose trailing hash_size bytes differ from the recomputed hash is rejected.", "quantifier": "every invertible pair of transforms, every hash, every message, every tampered ciphertext", "why_tests_cant": "All inputs.", "anchors": ["src/cryptokit.ml: transform_then_hash (374-406)", "src/cryptokit.ml: transform_and_hash (408-436)", "src/cryptokit.ml: auth_transform_string, auth_check_transform_string (294-315)"]}
{"id": "C48", "title": "pseudo_rng is a deterministic stream", "statement": "The bytes delivered by pseudo_rng depend only on the seed and the position in the stream, not on how requests are split; exactly the requested range is filled; seeds shorter than 16 bytes are rejected; different seeds give different generator states.", "quantifier": "every seed, every sequence of request sizes", "why_tests_cant": "All seeds and request sequences.", "anchors": ["src/cryptokit.ml: Random.pseudo_rng (1875-1920)"]}
{"id": "C49", "title": "pseudo_rng_aes_ctr is AES in counter mode", "statement": "The bytes delivered by pseudo_rng_aes_ctr are AES_K(0) || AES_K(1) || ... independent of how requests are split; exactly the requested range is filled; seeds shorter than 16 bytes are rejected, and K is the first 16 bytes of a longer one.", "quantifier": "every seed, every sequence of request sizes", "why_tests_cant": "All seeds and request sequences.", "anchors": ["src/cryptokit.ml: Random.pseudo_rng_aes_ctr (1921-1945)"]}
{"id": "C50", "title": "System random generators fill exactly the requested range", "statement": "device_rng, system_rng, hardware_rng: random_bytes buf ofs len fills exactly bytes ofs..ofs+len-1 with successive source bytes, or raises; no other byte changes, no byte is left unfilled on success, whatever the short-read schedule.", "quantifier": "every buffer, range, device schedule of short reads", "why_tests_cant": "Depends on the schedule of the OS.", "anchors": ["src/cryptokit.ml: Random (1813-1900)", "src/stubs-rng.c"]}
{"id": "C51", "title": "Byte-string conversion of big integers", "statement": "of_bytes reads a big-endian number; to_bytes with numbits returns the ceil(numbits/8)-byte big-endian encoding of every n < 2^numbits; mod_power a b c and mod_mult a b c return the encoding of a^b mod c / a*b mod c on as many bytes as c.", "quantifier": "every natural number, every size", "why_tests_cant": "Failing sizes depend on limb alignment.", "anchors": ["src/cryptokitBignum.ml: of_bytes, to_bytes", "src/cryptokit.ml: mod_power, mod_mult (43-49)"]}
{"id": "C52", "title": "RSA decryption inverts encryption", "statement": "For a valid key, decrypt (encrypt m) = m and unwrap_signature (sign m) = m as numbers, encoded on size/8 bytes, for every m < n.", "quantifier": "every valid RSA key (p, q primes, ed = 1 mod lcm or phi), every message below n including multiples of p and q", "why_tests_cant": "All keys and messages.", "anchors": ["src/cryptokit.ml: RSA (1955-2089)", "src/cryptokitBignum.ml"]}
{"id": "C53", "title": "RSA with CRT equals plain RSA", "statement": "decrypt_CRT and sign_CRT return the same result as decrypt and sign for every valid key as documented for private keys.", "quantifier": "every valid RSA key, every message below n", "why_tests_cant": "Failing operands for a key with p < q are rare for balanced keys.", "anchors": ["src/cryptokit.ml: RSA.decrypt_CRT, RSA.sign_CRT", "src/cryptokitBignum.ml: mod_power_CRT"]}
{"id": "C54", "title": "RSA.new_key returns a valid key", "statement": "new_key returns a key of the requested size such that n = pq with p > q primes, e d = 1 mod (p-1)(q-1), dp, dq, qinv as documented, and with the requested exponent if one is given; for every even size and odd exponent it does not fail.", "quantifier": "every size, every exponent, every random source", "why_tests_cant": "Depends on all random draws.", "anchors": ["src/cryptokit.ml: RSA.new_key", "src/cryptokitBignum.ml: random_prime, to_bytes"]}
{"id": "C55", "title": "Paillier decryption inverts encryption", "statement": "decrypt (encrypt m) = m as numbers for every m < n, whatever the random r.", "quantifier": "every valid Paillier key, every m < n, every r prime to n", "why_tests_cant": "All keys, messages and randomness.", "anchors": ["src/cryptokit.ml: Paillier (2091-2186)"]}
{"id": "C56", "title": "Paillier is additively homomorphic", "statement": "add of two ciphertexts decrypts to the sum of the plaintexts modulo n.", "quantifier": "every valid key, all plaintexts and randomness", "why_tests_cant": "All keys, messages and randomness.", "anchors": ["src/cryptokit.ml: Paillier.add"]}
{"id": "C57", "title": "Diffie-Hellman agreement", "statement": "Both parties derive the same shared secret from each other's message, of the length of p; the private secret cannot be used again afterwards.", "quantifier": "all parameters and private secrets", "why_tests_cant": "All parameters and secrets.", "anchors": ["src/cryptokit.ml: DH (2189-2236)"]}
{"id": "C58", "title": "DH.derive_key", "statement": "derive_key returns exactly the requested number of bytes, and a shorter request is a prefix of a longer one: it is the truncated concatenation of hashes of diversification, secret and counter.", "quantifier": "every shared secret, diversification string and length", "why_tests_cant": "All lengths.", "anchors": ["src/cryptokit.ml: DH.derive_key (2213-2236)"]}
{"id": "C59", "title": "Base64 encoding is RFC 4648 and decoding inverts it", "statement": "Base64.encode_compact(_pad) and encode_multiline followed by decode returns the data for every data and every splitting on both sides; compact encodings are exactly the RFC 4648 text.", "quantifier": "every byte string, every split of puts", "why_tests_cant": "All strings and splits.", "anchors": ["src/cryptokit.ml: Base64 (2240-2399)"]}
{"id": "C60", "title": "Base64 decoding accepts exactly well-formed text", "statement": "Base64.decode ignores blanks, and raises Bad_encoding exactly when the remaining text is not base64 (invalid character, misplaced '=', incomplete quantum).", "quantifier": "every byte string, every split", "why_tests_cant": "All strings.", "anchors": ["src/cryptokit.ml: Base64.decode (2310-2399)"]}
{"id": "C61", "title": "Base64 multi-line layout", "statement": "encode_multiline output consists of lines of the documented length (76 characters), every line being terminated by a newline.", "quantifier": "every byte string", "why_tests_cant": "All lengths.", "anchors": ["src/cryptokit.ml: Base64.encode (2240-2305)", "src/cryptokit.mli: Base64.encode_multiline"]}
{"id": "C62", "title": "Hexadecimal encoding round trip and exact acceptance", "statement": "Hexa.encode writes two lowercase digits per byte; decode accepts upper and lower case, ignores blanks, inverts encode, and raises Bad_encoding exactly on other characters or an odd number of digits.", "quantifier": "every byte string, every split", "why_tests_cant": "All strings and splits.", "anchors": ["src/cryptokit.ml: Hexa (2403-2487)"]}
{"id": "C63", "title": "string_equal is equality", "statement": "string_equal and bytes_equal return true exactly when the two strings are equal.", "quantifier": "all pairs of strings of any length", "why_tests_cant": "All pairs.", "anchors": ["src/cryptokit.ml: string_equal, bytes_equal (18-29)"]}
{"id": "C64", "title": "string_equal is constant time", "statement": "The sequence of memory accesses and the number of iterations of string_equal depend on the lengths of the arguments only.", "quantifier": "all pairs of strings of the same length", "why_tests_cant": "Timing over all contents cannot be sampled.", "anchors": ["src/cryptokit.ml: seq_equal (18-25)"]}
{"id": "C65", "title": "xor_string and xor_bytes", "statement": "xor_bytes/xor_string xor exactly the given range and nothing else, whatever the alignment (word-wise and byte-wise code agree), and raise Invalid_argument on bad ranges.", "quantifier": "all arrays, offsets, lengths and alignments", "why_tests_cant": "Alignment is chosen by the allocator.", "anchors": ["src/stubs-misc.c: caml_xor_string", "src/cryptokit.ml: xor_bytes, xor_string (2627-2639)"]}
{"id": "C66", "title": "wipe erases secrets and leaves objects memory-safe", "statement": "After wipe, the cooked key / state buffers contain no byte depending on the key; using an object after wipe never accesses memory outside its buffers.", "quantifier": "every cipher class, every key, every later call", "why_tests_cant": "Out-of-bounds reads after wipe usually do not crash a test.", "anchors": ["src/cryptokit.ml: wipe (31-32), aes wipe (512-514)", "src/stubs-aes.c"]}
{"id": "C67", "title": "Stubs are independent of GC schedule", "statement": "The result of every OCaml-to-C stub depends only on its arguments, not on whether an allocation inside the stub triggers a garbage collection that moves the arguments.", "quantifier": "every argument, every GC schedule", "why_tests_cant": "Needs a minor collection at one precise allocation.", "anchors": ["src/stubs-siphash.c: caml_siphash_init", "src/stubs-ghash.c: caml_ghash_init", "src/stubs-*.c"]}
{"id": "C68", "title": "Zlib wrapper feeds and collects everything", "statement": "The compress and uncompress transforms hand every input byte to zlib exactly once and in order and deliver every byte zlib produces exactly once and in order, whatever amounts zlib consumes and produces per call.", "quantifier": "every schedule of (consumed, produced) amounts zlib's contract allows, every history", "why_tests_cant": "zlib's internal schedule.", "anchors": ["src/cryptokit.ml: Zlib (2491-2623)"]}
{"id": "C69", "title": "CTR mode accepts every message that fits", "statement": "In CTR mode with an n-byte counter (n at most 8), every message of at most 2^(8n) blocks is accepted: Message_too_long is raised only if the message needs more counter blocks than there are counter values.", "quantifier": "every block cipher, counter width, IV and message", "why_tests_cant": "Needs messages of 2^(8n) blocks; only the smallest widths can be tested.", "anchors": ["src/cryptokit.ml: Block.ctr (742-766)", "src/cryptokit.mli: Message_too_long"]}
{"id": "C70", "title": "DES ignores the parity bits of its keys", "statement": "Two DES or triple-DES keys that differ only in the least significant bit of some bytes give objects with identical behaviour (or the same exception), including for the final-triple-DES MAC; triple DES with three equal key parts computes exactly single DES.", "quantifier": "every key of every length, both directions, every IV and padding of the MAC", "why_tests_cant": "A test compares a few key pairs; the claim covers the 2^8 (2^24) parity variants of every key.", "anchors": ["src/d3des.c: d3des_cook_key (52-105)", "src/cryptokit.ml: des_encrypt/des_decrypt, triple_des_* classes", "src/cryptokit.mli: Cipher.des, Cipher.triple_des (562-584)"]}
{"id": "C71", "title": "Block sizes of transforms are honoured", "statement": "input_block_size and output_block_size describe what a transform does: the total output is a multiple of output_block_size; input whose length is not a multiple of input_block_size makes finish raise; input of a multiple of input_block_size (in particular any length, when it is 1) is never refused with Wrong_data_length. Without padding the output is as long as the input, with padding encryption produces (n/b+1)*b bytes and decryption between n-b and n-1.", "quantifier": "every block cipher, mode, padding, IV, stream cipher, encoding and composition, every message", "why_tests_cant": "All lengths and all combinations; the failing combinations (compositions, empty padded input) are easy to miss.", "anchors": ["src/cryptokit.ml: 198-226, 770-869, 1036-1068", "src/cryptokit.mli: input_block_size, output_block_size, finish (60-137)"]}
{"id": "C72", "title": "flush makes all output available and does not disturb the transform", "statement": "flush raises Wrong_data_length iff the input so far is not a whole number of cipher blocks (whatever the padding), otherwise makes available exactly the transformation of the input so far, with no padding; the transform can go on, and calls of flush do not change the final result.", "quantifier": "every block cipher, mode, padding, direction and every sequence of put, get and flush calls", "why_tests_cant": "Unbounded interleavings of put, get and flush.", "anchors": ["src/cryptokit.ml: cipher#flush, cipher_padded_encrypt, cipher_padded_decrypt (770-869)", "src/cryptokit.mli: flush (72-84)"]}
{"id": "C73", "title": "Keystream modes: the keystream depends on key and IV only", "statement": "OFB, CTR and CTR_N ciphers, AES-GCM and ChaCha20-Poly1305 xor the message with a keystream fixed by the key and the IV: it is the same for both directions, for every message, every way of feeding it, every header and every implementation. So two messages of the same length under one key and IV give ciphertexts whose xor is the xor of the messages.", "quantifier": "every block cipher, key, IV, direction, header, message and sequence of put/get calls", "why_tests_cant": "Quantifies over all messages and call sequences with a single keystream chosen beforehand.", "anchors": ["src/cryptokit.ml: ofb, ctr (700-770), GCM and ChaCha20-Poly1305 (AEAD module)", "src/cryptokit.mli: OFB, CTR (documentation: never reuse an IV)"]}
{"id": "C74", "title": "The string authenticated by the AEADs determines header and ciphertext", "statement": "The tag of ChaCha20-Poly1305 and AES-GCM is the one-time MAC of a string built from the header and the ciphertext, and two different pairs (header, ciphertext) always give two different strings; in particular moving bytes between header and ciphertext, or adding zero bytes at the end of either, changes the authenticated string. For GCM it remains so up to leading zero blocks, which GHASH ignores.", "quantifier": "every key, IV, header and message within the size limits", "why_tests_cant": "Injectivity over all pairs of inputs of unbounded length.", "anchors": ["src/cryptokit.ml: class aes_gcm, class chacha20_poly1305", "src/cryptokit.mli: AEAD"]}
{"id": "C75", "title": "Invalid ranges given to hashes and MACs are refused", "statement": "add_substring of a hash or MAC, called with an offset and a length that do not designate a range of the string, raises Invalid_argument and does not change the state of the hash: the final result is that of the other calls.", "quantifier": "every hash and MAC, every state reached by valid calls, every string, offset and length", "why_tests_cant": "All integers as offsets and lengths, in all states, for all the hash objects.", "anchors": ["src/cryptokit.ml: add_substring of the hash classes, class mac", "src/cryptokit.mli: class type hash"]}
{"id": "C76", "title": "Random numbers of a given size are uniform", "statement": "A number of nb bits drawn from a random generator has its top bit set (and is odd if asked), consumes ceil(nb/8) bytes of the generator, and each of the possible numbers is given by equally many byte strings; a Diffie-Hellman private secret is such a number of privlen bits.", "quantifier": "every size, every generator that delivers bytes", "why_tests_cant": "Uniformity is a count over all the strings of a length; tests sample a few.", "anchors": ["src/cryptokit.ml: Bn.random, DH.private_secret", "src/cryptokitBignum.ml: random", "src/cryptokit.mli: DH.private_secret"]}
{"id": "C77", "title": "Keys that HMAC does not distinguish", "statement": "The HMAC functions give the same MACs for a key and for this key followed by zero bytes, up to the block size of the hash, and for a key longer than the block size and the hash of this key.", "quantifier": "every HMAC, every key, every message in any pieces", "why_tests_cant": "All keys and all messages, by any sequence of calls.", "anchors": ["src/cryptokit.ml: class hmac", "src/cryptokit.mli: MAC.hmac_sha1 and others"]}
{"id": "C78", "title": "derive_key: which inputs give related keys", "statement": "derive_key secret n is a prefix of derive_key secret m for n <= m. It depends only on the concatenation of diversification string and secret, so different diversification strings can give the same key for different secrets. The key for secret followed by the digit 1 is a part of the longer key for secret. The hash is not SHA-1, as documented, but SHA-256.", "quantifier": "every diversification string, secret and length", "why_tests_cant": "Relations between the outputs on all inputs.", "anchors": ["src/cryptokit.ml: DH.derive_key", "src/cryptokit.mli: DH.derive_key"]}
{"id": "C79", "title": "Nothing is generated without entropy", "statement": "When no source of randomness is available, Random.string, RSA.new_key, Paillier.new_key and encrypt, DH.new_parameters and DH.private_secret with the default generator raise Error No_entropy_source and never return a key or a message.", "quantifier": "every size and parameter that passes the checks", "why_tests_cant": "A machine without any source of randomness is not a test environment; all the sizes.", "anchors": ["src/cryptokit.ml: class no_rng, Random.string, RSA.new_key, Paillier, DH", "src/cryptokit.mli: Random.secure_rng"]}
{"id": "C80", "title": "Stream ciphers when source and destination share memory", "statement": "A sequence of calls of transform of an ARCfour or ChaCha20 object, where the source and destination ranges may be the same bytes or overlap in any way, stores in each destination range the source range as it was before the call, xored with the next bytes of the keystream, changes nothing else, and refuses the calls out of range.", "quantifier": "every key, every content of memory, every sequence of calls on arrays of this memory", "why_tests_cant": "All overlaps of the ranges, all lengths, all positions in the keystream.", "anchors": ["src/arcfour.c: arcfour_encrypt", "src/chacha20.c: chacha20_transform", "src/cryptokit.ml: class arcfour, class chacha20"]}
{"id": "C81", "title": "secure_rng uses the first source available, and a stuck processor is refused", "statement": "The bytes that secure_rng gives are, in order, those of the first source available among the system call, /dev/random and the processor; without source every request raises No_entropy_source. hardware_rng () raises No_entropy_source on a processor without RDRAND or whose RDRAND fails or answers all ones for ever, accepts one that gives another value in the first eight executions, and its test always ends, after at most 160 executions, none of which is used later.", "quantifier": "every machine (any answers of the sources), every sequence of requests in range", "why_tests_cant": "The machines, and the failures of the sources, are not those of the test environment.", "anchors": ["src/cryptokit.ml: system_rng, device_rng, hardware_rng, secure_rng", "src/stubs-rng.c: caml_hardware_rng_available, rdrand64", "src/cryptokit.mli: Random.secure_rng, Random.hardware_rng"]}
{"id": "C82", "title": "Memory safety of every object, and of every combination", "statement": "No sequence of calls of the methods of a transform, a hash, a MAC or an authenticated transform of the library, whatever the arguments and including calls after wipe and after exceptions, reads or writes outside a buffer; the same holds of transforms combined with compose to any depth, and of the combinations of such transforms with any hash or MAC.", "quantifier": "every object, every combination of any depth, every sequence of calls, every argument", "why_tests_cant": "The number of combinations and of sequences of calls is infinite, and accesses outside a buffer seldom show.", "anchors": ["src/cryptokit.ml: class compose, transform_then_hash, transform_and_hash, the AEAD classes", "src/cryptokit.ml: base64, hexa"]}
{"id": "C83", "title": "wipe leaves nothing of the data and keys in encoders, hashes, MACs, combinations and AEAD objects", "statement": "After any calls and then wipe, a Base64 or hexadecimal coder, a hash, a keyed hash, a MAC, a ChaCha20-Poly1305 object, a compression object holds nothing that depends on the bytes given, on the key or on the initial vector, but only numbers (how many bytes are pending, positions in the output buffer); the wipe of a combination is the wipe of each of its parts.", "quantifier": "every two histories of calls and every two keys that leave the same numbers", "why_tests_cant": "What remains in memory is not observable through the interface.", "anchors": ["src/cryptokit.ml: the methods wipe", "src/stubs-zlib.c"]}
{"id": "C84", "title": "The functions that use an object once wipe it, and wipe their own buffer", "statement": "When transform_string, transform_channel, hash_string, hash_channel, auth_transform_string(_detached) or auth_check_transform_string (text accepted or refused) returns, the object has been wiped, and the buffer used to read the channel contains only zeros. The same holds when they raise.", "quantifier": "every object, every string, every channel and way of reading it, every len", "why_tests_cant": "The buffer is not reachable once the function has returned.", "anchors": ["src/cryptokit.ml: 164-196, 241-269, 294-316"]}
{"id": "C85", "title": "Erasing temporary numbers never disturbs the results or what the caller has", "statement": "The functions of RSA, Paillier and DH erase big integers while the big integer library may return one of its arguments instead of a new number. Whatever it shares, each function returns, as a new string, what the same function computes on values without any erasure, and leaves every string and number of the caller unchanged, except that DH.shared_secret erases the private secret; hence encryption followed by decryption (with and without CRT) after key generation gives the message back, erasing the private key does not alter the public key, Paillier's sums and Diffie-Hellman's agreement hold.", "quantifier": "every memory, every key, message and random generator, every choice of what the library shares", "why_tests_cant": "Sharing depends on the library and on rare values; a number erased too early corrupts a result only then.", "anchors": ["src/cryptokit.ml: 1955-2220", "src/cryptokitBignum.ml", "src/stubs-misc.c: caml_wipe_z"]}
{"id": "C86", "title": "Public-key functions erase the secrets they handle", "statement": "Of the strings and big integers that a function of RSA, Paillier or DH allocates, those other than its result hold only zeros when it returns or raises; wipe_key replaces every string of a private key by zeros and changes nothing else.", "quantifier": "every memory, every key, message and random generator, every choice of what the big integer library shares", "why_tests_cant": "What remains in memory is not observable through the interface.", "anchors": ["src/cryptokit.ml: 1974-2220", "src/cryptokitBignum.ml: 41-120"]}
{"id": "C87", "title": "wipe erases every array the output has been in", "statement": "After wipe of a block cipher, no array that the object has used for its output, at any time since its creation, holds output data.", "quantifier": "every block cipher, chaining mode and padding, every history of calls", "why_tests_cant": "Arrays that an object no longer refers to are not observable through the interface, and stay in memory until the collector reuses them.", "anchors": ["src/cryptokit.ml: 312-380", "src/cryptokit.ml: 770-880"]}
{"id": "C88", "title": "block ciphers and modes work in place", "statement": "transform of a block cipher object, alone or under any chaining modes, does with overlapping source and destination in one array what it does with a copy of the source. A message can be encrypted or decrypted block after block in its own array, or towards the start of the array: the result is that of the mode on the original blocks, decryption in place restores the message, and no other byte changes.", "quantifier": "every cipher of the library, key, chaining mode, stack of modes, IV, array contents, offsets and number of blocks", "why_tests_cant": "Whether a byte is read before it is overwritten depends on the offsets and on the order of loads and stores of each mode; the test suite never passes the same array twice.", "anchors": ["src/cryptokit.ml: 499-768", "src/rijndael-alg-fst.c: 855-1210", "src/aesni.c: 260-300", "src/stubs-blowfish.c: 45-75", "src/d3des.c: 104-120"]}
{"id": "C89", "title": "Refused input leaves no trace; which integers are bytes", "statement": "A Base64 or hexadecimal object that raises an exception can be used further: the refused character and the rest of that argument are ignored, everything accepted before and after is decoded as if the rest had not been given. put_byte of an integer outside 0..255 raises Invalid_argument on encodings and zlib transforms, without any effect on other calls; ciphers, hashes, MACs and authenticated transforms use its low 8 bits.", "quantifier": "every sequence of calls, going on after exceptions, with any strings and any integers", "why_tests_cant": "The state after an exception depends on the position of the refused character in its group of digits and on what the object holds; tests stop at the first exception.", "anchors": ["src/cryptokit.ml: 2256-2322", "src/cryptokit.ml: 2346-2395", "src/cryptokit.ml: 2407-2487", "src/cryptokit.ml: 2542", "src/cryptokit.ml: 814-815", "src/cryptokit.ml: 1058-1059", "src/cryptokit.ml: 1088-1089"]}
{"id": "C90", "title": "Generators of one program are independent", "statement": "In a program that makes several pseudo-random generators, each delivers the stream of its own seed in order, however the requests are interleaved and whichever other generators are made, asked or wiped; nothing but the ranges asked for is written; wiping a generator has no effect on any other.", "quantifier": "every sequence of creations, requests and wipes, every memory, seeds and arrays shared in any way", "why_tests_cant": "The seed string is shared between the caller and the generators, so the effect of wipe depends on which other objects use the same string; tests use one generator at a time.", "anchors": ["src/cryptokit.ml: 31-32", "src/cryptokit.ml: 1901-1949"]}
{"id": "C91", "title": "Results do not depend on the machine", "statement": "On machines of either byte order, and whether C's long has 32 or 64 bits, the SHA-1, SHA-2, SHA-3, Keccak and RIPEMD-160 hash objects, the ChaCha20 and ARCFOUR stream ciphers and the Blowfish block cipher compute the standard function of what they are given, however long each piece is, and xor_bytes and xor_string treat the whole range.", "quantifier": "every machine, every sequence of valid calls, strings up to the longest OCaml string", "why_tests_cant": "Tests run on one machine, and strings of more than 512 Mbytes or 2 Gbytes are not tried.", "anchors": ["src/sha1.c: 26-42, 113-170", "src/sha256.c: 31-47, 164-230", "src/sha512.c: 31-53, 234-300", "src/ripemd160.c: 88-104, 333-390", "src/keccak.c: 126-154", "src/chacha20.c: 12-22", "src/stubs-blowfish.c: 31-75", "src/arcfour.c: 38-55", "src/stubs-misc.c: 19-48"]}
{"id": "C92", "title": "System generators on Windows", "statement": "On Windows, random_bytes buf ofs len of a system generator either fills exactly the bytes ofs..ofs+len-1 with what the system gave and returns, or raises; no other byte changes. A generator answers until it is wiped, whatever is done with other generators. When the system grants no provider, system_rng raises No_entropy_source.", "quantifier": "every program making, asking and wiping any number of generators; every behaviour of the system, including the choice of handles and failures", "why_tests_cant": "The tests are not run with failing providers, with requests of 2^32 bytes, or with generators wiped in every order.", "anchors": ["src/stubs-rng.c: 53-112", "src/cryptokit.ml: 1826-1847"]}
{"id": "C93", "title": "wipe overwrites with zeroes", "statement": "After wipe, every buffer, key schedule, initial vector, chaining block and C context of an object of the library holds only zero bytes (the number of rounds of AES, set to 16, apart), whatever was done with the object before; the same holds of every part of a composition or combination, to any depth.", "quantifier": "every transform, hash, MAC and authenticated transform, every composition of any depth, every sequence of calls before wipe", "why_tests_cant": "The contents of the buffers of a wiped object are not observable through the interface, and the sequences of calls and compositions are infinite.", "anchors": ["src/cryptokit.mli: 138-148, 207-209", "src/cryptokit.ml: the methods wipe"]}
{"id": "C94", "title": "Forgeries against ChaCha20-Poly1305", "statement": "Take any two different messages (header and ciphertext) with any tags. For each value of the second half s of the one-time key, the two are both accepted by the decryption object for at most 8 values of its first half r per block of the longer message. So whoever has seen one message with its tag, and does not know the one-time key, forges another with a probability of at most 8 times the number of blocks over 2^106, whatever the change: bytes altered, added, removed, moved between the header and the ciphertext, or tag altered.", "quantifier": "every pair of different messages of any lengths, every pair of tags, every set of keys and IVs", "why_tests_cant": "The set of keys is of size 2^256: no test can count those for which a message is accepted. An encoding which confuses two messages is seen only on that pair.", "anchors": ["src/cryptokit.mli: module AEAD", "src/cryptokit.ml: 1616-1810", "src/stubs-poly1305.c", "src/poly1305-donna-64.h"]}
{"id": "C95", "title": "Forgeries against AES-GCM", "statement": "Take any two different messages (header and ciphertext) with any tags. For each value of the mask (the encryption of the initial counter block), the two are both accepted by the decryption object for at most one hash key (the encryption of the block of zeroes) per block of the longer message. So whoever has seen one message with its tag, and does not know the key, forges another with a probability of at most the number of blocks over 2^128 if the cipher is a random permutation.", "quantifier": "every pair of different messages of any lengths, every pair of tags, every set of keys and IVs", "why_tests_cant": "The set of hash keys is of size 2^128: no test can count those for which a message is accepted. An encoding which confuses two messages is seen only on that pair.", "anchors": ["src/cryptokit.mli: module AEAD", "src/cryptokit.ml: 1616-1810", "src/stubs-ghash.c", "src/ghash.c", "src/pclmul.c"]}
{"id": "C96", "title": "Collisions of the hash functions come from their compression functions", "statement": "Two different messages, however they were added, have different digests by SHA-1, SHA-224, SHA-256, SHA-384, SHA-512, RIPEMD-160, SHA-3, Keccak, BLAKE2b, BLAKE2s and BLAKE3, unless hashing them makes two different calls of the compression function of the standard with the same result (or, for the last call, the same output; for SHA-3 and Keccak, or unless a beginning of one of the messages leads back to the initial state). So the padding, the cutting in blocks, the counters, the flags and the tree never make two messages the same.", "quantifier": "every pair of different messages of any lengths below the limit of the standard, every sequence of calls that adds them, every key and size of digest", "why_tests_cant": "Pairs of messages are infinite, and an encoding which confuses two messages is seen only on such a pair: messages whose lengths differ by a special amount, or which end with bytes that look like padding.", "anchors": ["src/cryptokit.mli: module Hash", "src/sha1.c", "src/sha256.c", "src/sha512.c", "src/ripemd160.c", "src/keccak.c", "src/blake2.c", "src/blake3.c"]}
{"id": "C97", "title": "Collisions of HMAC come from the hash function", "statement": "Two different pairs of key and message, with the same key or with two keys of the same length of at most one block, have different MACs by HMAC-SHA1, HMAC-SHA256, HMAC-SHA384, HMAC-SHA512 and HMAC-RIPEMD160, unless the two inner strings or the two outer strings hashed are a collision of the hash function. For keys of different lengths: two different keys give different MACs.", "quantifier": "every pair of keys and of messages of any lengths, every sequence of calls that adds the messages", "why_tests_cant": "Pairs of keys and messages are infinite; the confusion of two keys is seen only on such a pair.", "anchors": ["src/cryptokit.mli: module MAC, hmac_*", "src/cryptokit.ml: 1400-1463"]}
{"id": "C98", "title": "Collisions of SHA-3 and Keccak come from the capacity or from the last permutation", "statement": "Two different messages, however they were added, have different digests by SHA-3 and Keccak unless two different beginnings of their padded blocks lead to states with the same capacity part (the lanes that input never reaches), or the permutation, applied last to two different states, gives the same output bytes. Conversely, two different sequences of blocks with the same capacity part give two different messages with the same digest. The permutation itself never maps two states to the same one.", "quantifier": "every pair of different messages of any lengths, every sequence of calls that adds them, the four sizes of digest, with and without the domain suffix of FIPS 202", "why_tests_cant": "A permutation of 2^1600 states cannot be enumerated, and neither can pairs of messages.", "anchors": ["src/cryptokit.mli: Hash.sha3, Hash.keccak", "src/keccak.c: 43-185"]}
{"id": "C99", "title": "CBC-MACs: data of variable length can be extended, data of fixed length cannot be changed in one block", "statement": "MAC.aes, MAC.des and MAC.triple_des: the MAC of one message is enough to turn any second message into a longer one with the same MAC. But two messages that differ in one block only have different MACs (also with MAC.aes_cmac and MAC.des_final_triple_des), and two different messages of the same length have the same MAC only if, after two beginnings with different MACs, their next blocks differ by exactly the difference of these MACs.", "quantifier": "every key, initialization vector, padding, pair of messages of any lengths, and every sequence of calls that adds them", "why_tests_cant": "The claim is about all pairs of messages; the documentation says only that the MAC is weak for data of variable length and fine for data of fixed length.", "anchors": ["src/cryptokit.mli: MAC.aes (903-909), MAC.des, MAC.triple_des, MAC.aes_cmac, MAC.des_final_triple_des", "src/cryptokit.ml: 876-981, 1472-1503"]}
{"id": "C100", "title": "Hash functions chosen by digest size", "statement": "Hash.sha2, Hash.sha3, Hash.keccak, Hash.blake2b, Hash.blake2s and Hash.blake3, given the size of the digest in bits: for each size of the documentation they return a hash whose digests are those of the standard for that size and have exactly that size; for every other integer they raise Wrong_key_size. Hence two objects made for different sizes never give the same digest.", "quantifier": "every integer as the size, every message (below 2^64 bytes for BLAKE3) and every sequence of calls that adds it", "why_tests_cant": "The sizes are all integers, and the messages unbounded; a wrong branch for one rare size gives digests that look valid.", "anchors": ["src/cryptokit.ml: 1186-1336", "src/cryptokit.mli: 720-773"]}
{"id": "C101", "title": "Different keys that give the same function", "statement": "Blowfish and ARCFOUR keys that repeat to the same endless sequence of bytes (a key and its repetitions, within the allowed lengths) give the same object. A triple-DES key of 16 bytes and the same key followed by its first 8 bytes give the same object, also for the MAC that ends with triple DES; a triple-DES key of three parts with two equal neighbours behaves as DES with the other part. For HMAC, a key and the same key followed by zero bytes within one block give the same MACs, and so do a key longer than one block and its hash.", "quantifier": "every pair of keys of that form, both directions, every message and sequence of calls, every IV and padding of the MAC", "why_tests_cant": "The keys and messages are unbounded; tests use keys of one length and would not compare the objects of two lengths.", "anchors": ["src/cryptokit.ml: 535-640", "src/cryptokit.ml: 994-1008", "src/cryptokit.ml: 1410-1463", "src/blowfish.c: 473-510", "src/arcfour.c: 16-36"]}
{"id": "C102", "title": "DES: complements, weak and semi-weak keys", "statement": "If every bit of a DES or triple-DES key is inverted, transform applied to inverted bytes gives the inverted result, with the same exception outside the buffers. For the four weak keys of DES encryption and decryption are the same object, so that encrypting twice gives back the block; for the six pairs of semi-weak keys, each key of the pair decrypts what the other encrypts.", "quantifier": "every key of the allowed lengths (complement), every source, destination and offsets, both directions; the ten published pairs (weak keys), every block", "why_tests_cant": "The relation holds for all 2^56 keys and 2^64 blocks; an error in one table entry breaks it for some of them only.", "anchors": ["src/d3des.c", "src/cryptokit.ml: 569-640"]}
{"id": "C103", "title": "A change of the ciphertext spreads only a known number of blocks", "statement": "When ciphertext is decrypted without padding, each block of the decrypted text depends only on the same block of the ciphertext and the r blocks before it, with r = 0 in ECB, OFB and CTR, 1 in CBC and, in CFB with chunks of n bytes, the least number of chunks that covers a cipher block. In ECB, CBC and CFB the text is right again r blocks after any damage: a changed IV, or blocks changed, lost or inserted. In CBC the bits changed in one block of ciphertext are exactly the bits changed in the next block of text when that next block is unchanged, and the bits changed in the IV are exactly those changed in the first block of text; in CFB the bits changed in a chunk are changed in the same chunk of text.", "quantifier": "every block cipher of the library (any cipher whose block function is fixed by the key), key, IV, mode, chunk size, ciphertext, position", "why_tests_cant": "Ciphertexts and changes are unbounded; a test checks one damaged block of one message.", "anchors": ["src/cryptokit.ml:651-760", "src/cryptokit.ml:1355-1375"]}
{"id": "C104", "title": "A message can be continued by a second object", "statement": "Without padding, a message of whole blocks can be cut after any block and its second part given to another object with the same key and mode: the outputs, put together, are the output of one object given the whole message. The second object takes as IV the last block of ciphertext (CBC), the end of IV and ciphertext (CFB), the last block of keystream (OFB with full blocks), the counter increased by the number of blocks done with wrap-around in its counting bytes (CTR), anything (ECB); in ChaCha20 it takes the counter increased by the number of 64-byte blocks done. Both directions; so decryption can also start in the middle.", "quantifier": "every block cipher and key, mode, chunk size and counter width, IV, direction, message and place of the cut; in CTR within the limit on the number of blocks, in ChaCha20 for counters the constructor accepts", "why_tests_cant": "Messages, cuts and counters are unbounded; carries of the counter and shift registers shorter than a block appear only in some of them.", "anchors": ["src/cryptokit.ml: 643-760", "src/cryptokit.ml: 1010-1035", "src/chacha20.c"]}
{"id": "C105", "title": "The array lent by get_substring", "statement": "get_substring hands out the internal array. The range it returns holds exactly the output that was pending, and stays intact until the next call that produces output or wipes. Whatever the caller stores anywhere in that array before the next production of output, no later result of any output method changes. wipe erases the lent bytes too. After a later production, a store does change later output, and the lent range is overwritten.", "quantifier": "every sequence of productions, reads and stores of arbitrary arrays, every initial size of the buffer", "why_tests_cant": "The number, order and content of calls and stores are unbounded; growth and compaction of the buffer happen only in some.", "anchors": ["src/cryptokit.ml: 317-373", "src/cryptokit.mli: 96-105"]}
{"id": "C106", "title": "Several objects built on one block cipher object", "statement": "Any number of ciphers and MACs, with or without padding, in any chaining modes nested to any depth, can be built on one and the same AES, DES, triple DES or Blowfish object and used in any order of calls: each of them returns what it would return with a block cipher of its own, as long as no other one is wiped. The wipe of one object wipes the shared block cipher and changes nothing else of the other objects, whose later results then differ. Objects that change when they transform, such as those of the chaining modes, cannot be shared that way.", "quantifier": "every block cipher whose transform leaves it unchanged (in particular those of the library, every key), every family of objects built on it, every interleaving of calls", "why_tests_cant": "The number of objects, their modes and nesting and the interleavings are unbounded.", "anchors": ["src/cryptokit.ml: 499-640", "src/cryptokit.ml: 643-766", "src/cryptokit.ml: 770-981"]}
{"id": "C107", "title": "compose is associative", "statement": "compose (compose a b) c and compose a (compose b c) transform every message to the same result, by transform_string or by any sequence of calls, or both refuse it. Before flush and finish, every call returns the same on both, whatever the three transforms are, also after exceptions and wipes. The exception with which a message is refused can differ.", "quantifier": "every three transforms of the library (ciphers, stream ciphers, encodings, compositions), every message; for the second part, transforms of any behaviour, every state and sequence of calls", "why_tests_cant": "Transforms, messages and sequences of calls are unbounded, and the order of the internal calls differs at flush and finish.", "anchors": ["src/cryptokit.ml: 198-226"]}
{"id": "C108", "title": "Output buffering on 32-bit machines", "statement": "On a 32-bit machine, where integers have 31 bits and strings at most 2^24 - 5 bytes, the output buffer of every transform is a first-in first-out queue of at most 2^24 - 5 bytes: the computation of its size never overflows or runs for ever, output that does not fit is refused with Output_buffer_overflow and leaves the buffer as it was. Every history without such a refusal is observed to be the same as on a 64-bit machine.", "quantifier": "every sequence of operations on strings that can exist, every initial size; more generally every width of integers and maximal length of strings of which the former has room for four times the latter", "why_tests_cant": "Histories and sizes are unbounded, and the tests run on one kind of machine.", "anchors": ["src/cryptokit.ml: 319-370"]}
{"id": "C109", "title": "SHA-1, SHA-256, SHA-512 and RIPEMD-160 can be continued from a digest", "statement": "The digest of a message continued by its own padding and by any string x is a fixed function of the digest of the message, of its length and of x: whoever knows these computes it without the message. In particular two messages of the same length and digest, continued in this way by the same x, have the same digest.", "quantifier": "every message, every x, both added in any pieces; SHA-1, SHA-256, SHA-512, RIPEMD-160", "why_tests_cant": "Messages and continuations are unbounded; what a digest does not protect is not visible in test vectors.", "anchors": ["src/cryptokit.ml: 1076-1096, 1120-1240", "src/sha1.c", "src/sha256.c", "src/sha512.c", "src/ripemd160.c"]}
{"id": "C110", "title": "RSA without padding: products, signatures of unknown messages, guesses", "statement": "RSA.encrypt, decrypt, sign and unwrap_signature treat the message as a number: a product of ciphertexts decrypts to the product of the messages, a product of signatures is the signature of the product, every string below the modulus is the signature of a message computed from the public key alone, and encrypting a guess gives the ciphertext exactly if the guess is right.", "quantifier": "every key whose numbers are those of RSA, of a size that fills whole limbs, and all messages below the modulus", "why_tests_cant": "Keys and messages are unbounded; what an operation does not protect is not visible in round trips.", "anchors": ["src/cryptokit.ml: 1983-2005"]}
{"id": "C111", "title": "Diffie-Hellman: every message is taken", "statement": "DH.shared_secret never refuses a message of the other side. With 0 the secret is 0, with 1 it is 1, with p-1 it is 1 or p-1 depending on the parity of the private secret; with a message of order q modulo p it depends only on the private secret modulo q; the product of two messages gives the product of their secrets; adding multiples of p to the message changes nothing.", "quantifier": "all parameters with an odd modulus that fills whole limbs, all positive private secrets, all strings as messages", "why_tests_cant": "Parameters, secrets and messages are unbounded; tests use messages produced by the library.", "anchors": ["src/cryptokit.ml: 2209-2220"]}
{"id": "C112", "title": "The exception for wrong padding reveals the message", "statement": "With CBC and either padding scheme (by length, or 80 00), whoever has the IV and the ciphertext of a message and only learns, for IVs and blocks of their choice, whether decryption raises Error Bad_padding, computes the whole message: one explicit procedure that uses nothing but these answers returns the message followed by its padding.", "quantifier": "every block cipher (blocks of 2 to 255 bytes for padding by length), every key, IV and message, both paddings", "why_tests_cant": "The procedure must work for every cipher, key and message; tests observe single exceptions, not what sequences of them reveal.", "anchors": ["src/cryptokit.ml: 448-483", "src/cryptokit.ml: 665-685", "src/cryptokit.ml: 858-890"]}
{"id": "C113", "title": "What ciphertexts of two messages tell about the messages", "statement": "With the same key and IV (the default IV is zero) the ciphertexts of two messages agree in their first j blocks exactly if the messages do, in every mode. In ECB any two blocks of ciphertext are equal exactly if the blocks of the messages are. In CBC, for any two IVs, two blocks of ciphertext are equal exactly if the xor of the two blocks of the messages is the xor of the ciphertext blocks (or IVs) before them.", "quantifier": "every block cipher, mode, key, IV and pair of messages of whole blocks within the limits of the mode", "why_tests_cant": "A statement about all pairs of messages and positions, in both directions.", "anchors": ["src/cryptokit.ml: 640-830"]}
{"id": "C114", "title": "pseudo_rng_aes_ctr never repeats a block", "statement": "Whatever calls are made to a generator of pseudo_rng_aes_ctr, the bytes it gives, taken in pieces of 16 from the first on, are pairwise different up to 2^128 pieces; a source of uniform independent bytes would repeat some.", "quantifier": "every seed of at least 16 bytes, both AES implementations, every sequence of sizes of requests, every two positions", "why_tests_cant": "Sequences of requests and positions are unbounded; a repetition caused by the buffering across calls would appear only for some sizes.", "anchors": ["src/cryptokit.ml: 1921-1949"]}
{"id": "C115", "title": "AEAD decryption objects deliver plaintext before any check of the tag", "statement": "After put_string of any ciphertext, and without finish_and_get_tag, get_string of a chacha20_poly1305 decryption object returns the decryption of all of it, and of an aes_gcm one the decryption of all but the last block (16 bytes or less); auth_check_transform_string with the same bytes and a wrong tag returns None. So only the latter keeps unauthenticated plaintext from its caller.", "quantifier": "every key, IV, header, implementation, ciphertext and wrong tag", "why_tests_cant": "Ciphertexts, tags and sizes are unbounded; the claim is about every string, in particular those never produced by encryption.", "anchors": ["src/cryptokit.ml: 305-317", "src/cryptokit.ml: 1667-1714", "src/cryptokit.ml: 1778-1802"]}
{"id": "C116", "title": "The memory reads of the software AES determine its key", "statement": "Without the AES instructions, encryption of a block reads a number of table entries, in a sequence of tables, that depend on the size of the key only; but the indices are the bytes of the states of FIPS 197: the first sixteen are the bytes of the block xor those of the key, and all of them, for one known block, determine the whole key.", "quantifier": "every key of 16, 24 or 32 bytes, every block, every pair of keys", "why_tests_cant": "Tests see results, not memory accesses; and that no two keys give the same accesses is a claim about all pairs of keys.", "anchors": ["src/rijndael-alg-fst.c: 854-1033", "src/stubs-aes.c: 65-80"]}
{"id": "C117", "title": "RSA by Chinese remainders: a wrong half gives away a factor", "statement": "sign_CRT and decrypt_CRT do not check their result. If the exponent for p or the inverse of q of a private key has been altered (or is computed wrongly), every wrong signature s of a message m satisfies gcd(unwrap_signature s - m, n) = q; if the exponent for q has been altered, the gcd is p.", "quantifier": "every valid key with q < p (those of RSA.new_key), every alteration, every message whose signature is wrong", "why_tests_cant": "Keys, alterations and messages are unbounded; tests with valid keys never meet a wrong half.", "anchors": ["src/cryptokitBignum.ml: 41-66", "src/cryptokit.ml: 2007-2022"]}
{"id": "C118", "title": "Calling result again", "statement": "The method result of a hash or MAC object, called several times in a row, returns the same string each time.", "quantifier": "all sequences of additions, all messages, any number of calls; SHA-1, SHA-224/256/384/512, RIPEMD-160, SHA-3, Keccak, BLAKE2, BLAKE3, CBC-MAC, CMAC, SipHash, HMAC", "why_tests_cant": "Tests call result once; what later calls return depends on the length of the message and on all its bytes, and the number of calls is unbounded.", "anchors": ["src/cryptokit.mli: 195-201", "src/sha1.c: 149-170", "src/sha256.c: 200-230", "src/sha512.c: 270-300", "src/ripemd160.c: 369-390", "src/keccak.c: 156-185", "src/cryptokit.ml: 926-941, 967-976, 1314-1334"]}
{"id": "C119", "title": "Random generators after wipe", "statement": "wipe closes the device of device_rng: every later request for one byte or more raises and writes nothing, and so does a second wipe. It has no effect on the system and hardware generators. For pseudo_rng_aes_ctr it clears the seed and the block in progress: the rest of this block is delivered as zeros, and from the next block on the stream continues as if nothing had happened. For pseudo_rng the seed is cleared.", "quantifier": "every seed, every device and schedule of reads, every sequence of requests before and after wipe", "why_tests_cant": "Seeds, devices and sequences of requests are unbounded; what a wiped generator delivers depends on the position in its stream.", "anchors": ["src/cryptokit.ml: 1826-1948"]}
{"id": "C120", "title": "Data added after result", "statement": "When an object for a hash or a MAC is given more data after a call of result, the next call of result returns the digest or MAC of everything given since the object was created.", "quantifier": "all sequences of lists of additions, each followed by result, of any length; SHA-1, SHA-2, RIPEMD-160, SHA-3, Keccak, BLAKE2, BLAKE3, HMAC, CBC-MAC, CMAC, SipHash, the MAC with a final triple DES; SHA-1 also for the counterexample", "why_tests_cant": "Tests make one object per message; what an object goes on with after result depends on all the data before and on the lengths of the pieces.", "anchors": ["src/cryptokit.mli: 195-201", "src/keccak.c: 156-185", "src/blake3.c: 564-622", "src/cryptokit.ml: 926-941, 967-976"]}
