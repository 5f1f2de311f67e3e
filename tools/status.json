{
 "C01": [
  "proved",
  "Refinement of the concrete buffer with cursors to a FIFO queue, every history of operations."
 ],
 "C02": [
  "proved",
  "Statement limited to pending output plus n at most 2^61: above, the doubling loop does not terminate (C02_beyond_bound_refuted)."
 ],
 "C03": [
  "partial",
  "True for block cipher transforms as far as C03_block_bad_range_partial says; the full statement is false: stream ciphers hang on huge lengths, negative lengths are silently ignored, a too long range is processed in part before the exception, a decrypting ChaCha20-Poly1305 object reads outside the string (C03_chapoly_decrypt_refuted), and the Zlib objects do not check the range at all (C03_zlib_refuted)."
 ],
 "C04": [
  "proved",
  "Every block cipher transform, mode and padding; C05/LibTransform extend it to encodings, stream ciphers and compositions."
 ],
 "C05": [
  "proved",
  "transform_string of a composition, and histories; any two lawful transforms."
 ],
 "C06": [
  "proved",
  "Any schedule of short reads, with and without ~len."
 ],
 "C07": [
  "proved",
  "For every library hash and MAC object other than MD5/HMAC-MD5, whose computation lies in the OCaml runtime."
 ],
 "C08": [
  "proved",
  "All modes against the block relations of SP 800-38A; CTR up to the limit of C14/C69."
 ],
 "C09": [
  "proved",
  ""
 ],
 "C10": [
  "proved",
  ""
 ],
 "C11": [
  "proved",
  ""
 ],
 "C12": [
  "proved",
  ""
 ],
 "C13": [
  "proved",
  ""
 ],
 "C14": [
  "proved",
  ""
 ],
 "C15": [
  "partial",
  "IV sizes of block modes (ECB ignores the IV), key sizes of AES, DES, triple DES, Blowfish, ARCFOUR, ChaCha20, the AEAD constructors, and all constructors of module MAC. Two exceptions make the full statement false: C15_chacha20_iv_size_refuted (a 12-byte ChaCha20 IV is refused as wrong size when the counter is at least 2^24) and C15_blake3_mac_refuted (MAC.blake3 accepts the empty key, documented as 32 bytes, and computes the unkeyed hash)."
 ],
 "C16": [
  "partial",
  "False for CBC encryption, which reads outside src without check (refuted for every primitive and state); proved for all other modes."
 ],
 "C17": [
  "proved",
  "Also the decryption class against the FIPS 197 inverse cipher."
 ],
 "C18": [
  "proved",
  ""
 ],
 "C19": [
  "proved",
  "Intrinsics modelled from their documented pseudo-code; both directions, all key sizes, exceptions included."
 ],
 "C20": [
  "proved",
  "Both directions; out-of-range arguments raise Invalid_argument."
 ],
 "C21": [
  "proved",
  "DES and triple DES (two and three keys) against EDE of FIPS 46-3, both inverses."
 ],
 "C22": [
  "proved",
  "Blowfish against its definition (tables are the digits of pi, computed independently), both inverses."
 ],
 "C23": [
  "proved",
  "Calls to the method transform in any number, valid or not, and the Cipher transform with any feeding. Applying twice: C25_arcfour."
 ],
 "C24": [
  "partial",
  "Proved for every counter the constructor accepts. C24_all_counters_refuted: with a 12-byte IV counters from 2^24 on are refused although RFC 8439 allows every 32-bit counter."
 ],
 "C25": [
  "proved",
  ""
 ],
 "C26": [
  "proved",
  "C implementation (buffering, padding, byte swaps, rounds) against FIPS 180-4, every history of calls."
 ],
 "C27": [
  "proved",
  "C implementation against FIPS 180-4, constants as roots of primes, every history of calls."
 ],
 "C28": [
  "proved",
  "C implementation against FIPS 180-4, every history of calls. SHA-512/224 and /256 are not provided by the library."
 ],
 "C29": [
  "proved",
  "C implementation against the bit-level sponge of FIPS 202, every history of calls; other sizes refused."
 ],
 "C30": [
  "proved",
  "C implementation against the 1996 definition, every history of calls."
 ],
 "C31": [
  "proved",
  "C implementation against RFC 7693, every digest size, every key, every history of calls."
 ],
 "C32": [
  "proved",
  "C implementation (chunk state, lazy stack merging, subtree compression) against the recursive tree, messages of less than 2^64 bytes."
 ],
 "C33": [
  "partial",
  "False for SHA-224, RIPEMD-160 (refuted; HMAC-RIPEMD-160 inherits hash_size 32); proved for all other hash and MAC objects. MD5 digests come from the OCaml runtime."
 ],
 "C34": [
  "partial",
  "Proved for all library hash and MAC objects but MD5; refuted for MD5 when one call adds 2^32 bytes."
 ],
 "C35": [
  "partial",
  "True if no single call adds 2^32 bytes or more; false otherwise (C35_md5_refuted): the length is truncated to a 32-bit unsigned. The MD5 computation itself belongs to the OCaml runtime and is a parameter."
 ],
 "C36": [
  "partial",
  "Proved for HMAC over SHA-1, SHA-256, SHA-384, SHA-512, RIPEMD-160 for all keys and messages; HMAC-MD5 for totals below 2^32 bytes (MD5 stub truncates, see C35)."
 ],
 "C37": [
  "proved",
  "For any block cipher of 16-byte blocks, hence for AES."
 ],
 "C38": [
  "proved",
  "For any block cipher family; CBC encryption as in C10."
 ],
 "C39": [
  "proved",
  ""
 ],
 "C40": [
  "proved",
  "Both limb variants, any splitting into pieces. Overflow: the theorem holds for every w that is right on results that fit, so no sum or product of the code overflows. Truncations the code relies on (left shifts, borrow) are explicit in the model."
 ],
 "C41": [
  "proved",
  "Table code = SP 800-38D Algorithm 1, and Algorithm 1 = polynomial multiplication modulo x^128+x^7+x^2+x+1."
 ],
 "C42": [
  "proved",
  "Intrinsics are modelled by their documented effect on 128-bit integers."
 ],
 "C43": [
  "proved",
  "Software AES or AES instructions, GHASH with or without carry-less multiplication, any IV length; beyond 2^36-32 bytes Message_too_long."
 ],
 "C44": [
  "proved",
  "Both AEADs: round trip, and acceptance of an arbitrary string if and only if its last 16 bytes are the tag."
 ],
 "C45": [
  "proved",
  "64-bit and 32-bit Poly1305, keys of 16 or 32 bytes, IVs of 8 or 12 bytes."
 ],
 "C46": [
  "partial",
  "Proved for GCM, for ChaCha20-Poly1305 with 8-byte IVs, and with 12-byte IVs up to the limit of RFC 8439 (2^38-64 bytes). False at the code's limit of 2^38 bytes (C46_chapoly_refuted): the last block reuses the keystream block of the Poly1305 key."
 ],
 "C47": [
  "partial",
  "Both combinators for every transform of the library other than compression, compositions included, and every hash or MAC whose tag has hash_size bytes. False for SHA-224 and RIPEMD-160 (C47_wrong_size_refuted), whose hash_size is wrong: nothing is ever accepted."
 ],
 "C48": [
  "partial",
  "The stream is ChaCha20 (C48_stream). Distinct seeds: false in general (refuted: padding collisions between lengths); true for equal lengths (partial); exact condition in C48_seeds_exact."
 ],
 "C49": [
  "proved",
  "AES counter-mode stream for software and AES-NI ciphers; valid requests."
 ],
 "C50": [
  "proved",
  "Device, getentropy and RDRAND generators."
 ],
 "C51": [
  "partial",
  "to_bytes ~numbits returns n exactly for the sizes filling whole 8-byte limbs (equivalence proved) and raises Invalid_argument for others (refuted); mod_power needs a positive exponent and an odd modulus, as Z.powm_sec refuses the rest; of_bytes and to_bytes without size hold without restriction."
 ],
 "C52": [
  "partial",
  "Round trip and length proved for key sizes filling whole 8-byte limbs; for the others the exact outcome is given by C52_results and the refutation shows a valid key for which encrypt and sign raise."
 ],
 "C53": [
  "partial",
  "Equality with the plain operations proved when q < p; refuted for p < q. C53_exact gives the result of decrypt_CRT in all cases: the right one, or n minus it under an exact condition."
 ],
 "C54": [
  "partial",
  "Validity of every returned key proved for all sources of randomness; absence of failure proved for sizes made of whole limbs; refuted: sizes such as 32 never give a key, the modulus may be one bit short; even exponents never terminate. Z.nextprime is only assumed to return primes."
 ],
 "C55": [
  "partial",
  "Round trip proved for all messages strictly between 0 and n, and totality up to the loop waiting for suitable randomness; refuted for 0, which encrypt refuses."
 ],
 "C56": [
  "proved",
  "For any tree of additions of encryptions; the encryptions are those that encrypt can return, hence of non-zero messages (see C55)."
 ],
 "C57": [
  "partial",
  "Agreement proved when p fills whole limbs, refuted otherwise; erasure proved for secrets of 63 bits or more, refuted for smaller ones. C57_exact gives results and erasure in all cases, C57_agree the agreement whenever no exception is raised."
 ],
 "C58": [
  "proved",
  "For all versions, secrets and lengths; the hash is SHA-256 as in the code, where the interface documentation says SHA-1."
 ],
 "C59": [
  "proved",
  ""
 ],
 "C60": [
  "partial",
  "The decoder is laxer than the statement: exact accepted language proved, witnesses of ill-formed accepted texts, all well-formed texts accepted."
 ],
 "C61": [
  "partial",
  "False: lines have 72 characters, last newline sometimes missing. Exact layout proved."
 ],
 "C62": [
  "proved",
  ""
 ],
 "C63": [
  "proved",
  ""
 ],
 "C64": [
  "proved",
  "Instrumented model: sequence of element accesses; timing of a single access or of machine instructions is not modelled."
 ],
 "C65": [
  "proved",
  "Also for overlapping ranges: word-wise and byte-wise code agree."
 ],
 "C66": [
  "partial",
  "Memory safety of every sequence of calls, wipe included, is proved for DES, triple DES, Blowfish, RC4, ChaCha20, SHA-1, SHA-2, RIPEMD-160, BLAKE2, SipHash, HMAC over these and the DES and Blowfish MACs. It is false for AES (every mode, CBC-MAC), SHA-3/Keccak and BLAKE3 after wipe (C66_aes_wiped, C66_aes_refuted, C66_sha3_wiped); for AES and SHA-3 it is proved as long as wipe is not called. Erasure is proved for every block cipher class, mode and padding and for RC4 and ChaCha20; it is false for AES-GCM, pseudo_rng_aes_ctr and HMAC (C66_gcm_not_erased, C66_gcm_refuted, C66_rng_not_erased, C66_hmac_refuted). The other objects and the combinations are in C82 and C83. BLAKE3 before wipe is C82_blake3."
 ],
 "C67": [
  "partial",
  "Proved for all the stubs, with arbitrary C functions, except caml_siphash_init and caml_ghash_init, for which it is false: neither registers its argument before allocating (C67_siphash_init_refuted, C67_ghash_init_refuted)."
 ],
 "C68": [
  "partial",
  "Proved for every recorded zlib (an arbitrary function), every chunking of calls below 4 GiB each, output below the buffer limit: what the object hands to zlib and returns is exactly the input consumed and the output produced, and the loops terminate whenever zlib makes progress. The full statement is false: beyond 4 GiB per call data is skipped (C68_compress_refuted), and uncompress#finish feeds a byte that the caller never gave, so a truncated stream can be accepted (C68_uncompress_refuted). zlib itself is not modelled."
 ],
 "C69": [
  "partial",
  "False: one block less than fits is accepted (refuted); C69_exact gives the exact condition of acceptance and of Message_too_long, for every message."
 ],
 "C70": [
  "proved",
  "equality of the constructed objects; triple DES with equal parts is DES"
 ],
 "C71": [
  "partial",
  "whole-block inputs are accepted for single transforms and non-empty messages; refuted for compositions (input_block_size 1 but Wrong_data_length) and for the empty message in padded decryption; the other parts proved in full"
 ],
 "C72": [
  "partial",
  "proved for histories in which no call raises; refuted: padded decryption flushed after its last block, finish then raises"
 ],
 "C73": [
  "proved",
  ""
 ],
 "C74": [
  "proved",
  "the injectivity theorems are about the encoded string; that equal tags imply equal strings is the security of the one-time MAC and not claimed"
 ],
 "C75": [
  "partial",
  "proved for hashes, HMAC, BLAKE and SipHash; for the CBC-MACs ranges of positive length are refused; refuted: a negative length is accepted, and a refused call changes the state"
 ],
 "C76": [
  "proved",
  "Value as a function of the bytes drawn, and equal numbers of preimages."
 ],
 "C77": [
  "proved",
  "Both kinds of equivalent keys, all the HMACs."
 ],
 "C78": [
  "partial",
  "the relations are proved; the claim that the hash is SHA-1, as documented, is refuted"
 ],
 "C79": [
  "proved",
  "Every function that takes a generator, with the generator that fails."
 ],
 "C80": [
  "partial",
  "proved for all calls whose destination does not begin inside the source (in place, disjoint, backward overlap); refuted for the others, about which the documentation says nothing"
 ],
 "C81": [
  "proved",
  "All the sources and sequences of requests; the Windows generator is in C92."
 ],
 "C82": [
  "partial",
  "Proved for all objects and combinations without AES and SHA-3, and for all of them as long as wipe is not called. After wipe it is false of AES and SHA-3 (C66_aes_wiped, C66_sha3_wiped); it is false of ChaCha20-Poly1305 decryption when put_substring is given an invalid range (C82_chapoly_decrypt_refuted), for which it is proved for valid ranges. BLAKE3 before wipe is C82_blake3, for messages under 2^64 bytes. Not covered: MD5, zlib (C68)."
 ],
 "C83": [
  "partial",
  "Proved for Base64, hexadecimal, SHA-1, SHA-2, SHA-3, RIPEMD-160, BLAKE2, BLAKE3, SipHash, CBC-MACs, CMAC, ChaCha20-Poly1305, combinations, and the data of HMAC; false for zlib (C83_zlib_refuted, C83_zlib_kept), for the key of HMAC and for GCM (C66). The buffers that buffered_output drops when it grows, and those lent by get_substring, are not part of the object and are not erased."
 ],
 "C84": [
  "partial",
  "Proved when the functions return; false when they raise (C84_exception_refuted)."
 ],
 "C85": [
  "proved",
  "The functions on values are those of C51-C57. ZArith is an oracle: any value it returns is right; Z.powm_sec and Z.of_bits return new numbers. Memory that the collector or GMP copies is not modelled. C85_dh_exchange goes from new_parameters to the two shared secrets."
 ],
 "C86": [
  "partial",
  "Proved for RSA.encrypt and RSA.decrypt when they return, for DH.private_secret, and for wipe_key. False when Message_too_long is raised (d remains, C86_exception_kept); for decrypt_CRT, which leaves numbers that give a factor of n (C86_crt_refuted; all that may remain is listed in C86_crt_partial); for RSA.new_key, which leaves (p-1)(q-1) always (C86_new_key_kept), and p-1, q-1 (C86_new_key_refuted); for Paillier's encrypt (the message), decrypt and new_key; for DH.shared_secret (the secret); DH.new_parameters erases nothing (C86_dh_new_parameters_partial lists what may remain)."
 ],
 "C87": [
  "partial",
  "False (C87_refuted): ensure_capacity drops the array that is too short without erasing it. Proved: exactly what stays when it grows (C87_kept, C87_kept_first_call, C87_buffer_kept); the claim holds if the output is fetched before 256 - blocksize bytes (or blocksize, if larger) are pending (C87_small_output_partial). Copies made by the collector are not modelled."
 ],
 "C88": [
  "proved",
  ""
 ],
 "C89": [
  "proved",
  ""
 ],
 "C90": [
  "partial",
  "False when one string is the seed of two generators (C90_seed_lost, C90_independent_refuted): wipe overwrites the caller's string with zeros, so a generator made from it afterwards gives the stream of a seed of zeros. C90_independent_partial: true if each string is the seed of one generator at most. C90_programs describes every program in which no wiped generator is asked; C90_wiped_answers the wiped pseudo_rng."
 ],
 "C91": [
  "partial",
  "False where C's long has 32 bits: C91_lost_refuted (a string of 2^32 bytes has the digest of the empty string), C91_length_refuted (wrong length field in SHA-384/512), C91_arcfour_refuted and C91_xor_refuted (calls that return and do nothing). True without condition where it has 64 bits, in both byte orders (C91_wide), and for pieces below the bounds of the _partial theorems otherwise; C91_exact, C91_exact64, C91_arcfour_exact and C91_xor_exact say what is computed in every case. ChaCha20 and Blowfish hold on every machine."
 ],
 "C92": [
  "partial",
  "C92_exact says what is written in every case, C92_programs_partial covers programs that do not use wiped generators, with requests below 2^32 bytes. The full claim is false: C92_filled_refuted (a request for 2^32 bytes succeeds without writing anything), C92_wiped_twice_refuted (the second wipe of a generator closes another one)."
 ],
 "C93": [
  "partial",
  "All transforms, their compositions, all hashes and MACs but MD5 (whose context belongs to the OCaml runtime), the combinations of transforms and hashes, ChaCha20-Poly1305; for AES-GCM, the exact list of what is zero and what stays (C93_gcm_partial). The full claim is false of AES-GCM, HMAC and pseudo_rng_aes_ctr: C66_gcm_refuted, C66_hmac_refuted, C66_rng_not_erased."
 ],
 "C94": [
  "proved",
  "Stated on the two messages that the decryption object accepts; the confidentiality of the key and the randomness of the keystream are assumptions on ChaCha20 outside of the claim."
 ],
 "C95": [
  "proved",
  "As C94, on AES."
 ],
 "C96": [
  "proved",
  "Messages below the limits of the standards (2^64 or 2^128 bits, BLAKE2 counters, BLAKE3 2^64 bytes). For SHA-3 and Keccak, whose padding does not contain the length, a third case: a beginning of one of the messages leads back to the initial state."
 ],
 "C97": [
  "partial",
  "The part on keys of different lengths is false of HMAC itself (RFC 2104 pads keys with zeroes): C97_keys_refuted. HMAC-MD5 is not covered: its hash is the OCaml runtime's."
 ],
 "C98": [
  "proved",
  "C98_permutation, C98_sha3, C98_converse; no bound on the lengths."
 ],
 "C99": [
  "proved",
  "C99_extension, C99_one_block, C99_one_block_cmac, C99_one_block_final_triple, C99_same_length; no bound on the lengths."
 ],
 "C100": [
  "proved",
  "C100_by_size, C100_refused, C100_sizes_differ."
 ],
 "C101": [
  "proved",
  "C101_blowfish, C101_arcfour, C101_repeated, C101_triple_two, C101_triple_neighbours, C101_hmac_zeros, C101_hmac_long (HMAC over the hashes of C36 other than MD5)."
 ],
 "C102": [
  "proved",
  "C102_complement, C102_triple_complement, C102_weak_keys."
 ],
 "C103": [
  "proved",
  "C103_local, C103_resync, C103_cbc_flip, C103_cbc_flip_iv, C103_cfb_flip. For OFB and CTR the changed bits are C73."
 ],
 "C104": [
  "proved",
  "C104_modes, C104_chacha20. OFB with chunks shorter than a block keeps bytes the caller never sees, so no IV can be given in general. With a 12-byte IV ChaCha20 refuses counters from 2^24 on (C24)."
 ],
 "C105": [
  "proved",
  "C105_writes, C105_reads, C105_wiped; C105_late_refuted and C105_late_read_refuted show that the condition (no production in between) is needed, as the documentation warns."
 ],
 "C106": [
  "proved",
  "C106_shared, C106_wipes, C106_library, C106_objects. C106_wipe_refuted and C106_stateful_refuted show that the two conditions are needed. One object used in two places of the same MAC (class mac_final_triple) is not covered."
 ],
 "C107": [
  "proved",
  "C107_messages, C107_calls; C107_exception_refuted: at finish the two groupings can raise different exceptions, because one hands on pending output first."
 ],
 "C108": [
  "proved",
  "C108_queue, C108_queue_32, C108_same, C108_model; C108_same_refuted: without the condition the two machines differ."
 ],
 "C109": [
  "proved",
  "C109_sha1, C109_sha256, C109_sha512, C109_ripemd160 and the _pairs theorems. SHA-224 and SHA-384 show only part of their state and are not concerned."
 ],
 "C110": [
  "proved",
  "C110_decrypt_product, C110_sign_product, C110_any_signature, C110_guess. For sizes that do not fill whole limbs see C52."
 ],
 "C111": [
  "proved",
  "C111_any_message, C111_fixed, C111_order, C111_product."
 ],
 "C112": [
  "proved",
  "C112_recover, C112_one_bit."
 ],
 "C113": [
  "proved",
  "C113_prefix, C113_ecb, C113_cbc."
 ],
 "C114": [
  "proved",
  "C114_no_repeat."
 ],
 "C115": [
  "proved",
  "C115_chapoly, C115_gcm."
 ],
 "C116": [
  "proved",
  "C116_same, C116_reads, C116_tables, C116_first, C116_key."
 ],
 "C117": [
  "proved",
  "C117_p, C117_q."
 ],
 "C118": [
  "partial",
  "The full claim is false (C118_refuted: SHA-1). It is proved of BLAKE3 and of CBC-MAC without padding (C118_blake3, C118_mac_no_padding); for SHA-1, SHA-2, RIPEMD-160, SHA-3, Keccak, BLAKE2, CBC-MAC with padding, CMAC, DES-final-triple-DES, SipHash and HMAC (but not HMAC-MD5) the exact value of every later call is proved (C118_sha1, C118_sha2, C118_ripemd160, C118_sha3, C118_blake2b, C118_blake2s, C118_mac, C118_cmac, C118_final_triple, C118_siphash, C118_hmac). Not treated: MD5, whose context is in the OCaml runtime."
 ],
 "C119": [
  "proved",
  "C119_device, C119_system, C119_aes, C119_chacha_seed."
 ],
 "C120": [
  "partial",
  "The full claim is false (C120_refuted: SHA-1). It is proved of BLAKE3 (C120_blake3); for SHA-1, SHA-2, RIPEMD-160, SHA-3, Keccak, BLAKE2, HMAC, CBC-MAC, CMAC, SipHash and the MAC with a final triple DES every result of every sequence is given exactly (C120_sha1, C120_sha2, C120_ripemd160, C120_sha3, C120_blake2b, C120_blake2s, C120_hmac, C120_mac, C120_cmac, C120_siphash, C120_final_triple). Not treated: MD5 and HMAC-MD5."
 ]
}
