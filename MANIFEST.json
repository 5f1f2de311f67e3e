{
 "claims": [
  {
   "property": "C01",
   "status": "proved",
   "theorems": [
    "C01_buffer_is_fifo"
   ],
   "note": "Refinement of the concrete buffer with cursors to a FIFO queue, every history of operations."
  },
  {
   "property": "C02",
   "status": "proved",
   "theorems": [
    "C02_room",
    "C02_overflow",
    "C02_beyond_bound_refuted"
   ],
   "note": "Statement limited to pending output plus n at most 2^61: above, the doubling loop does not terminate (C02_beyond_bound_refuted)."
  },
  {
   "property": "C03",
   "status": "partial",
   "theorems": [
    "C03_chapoly_decrypt_refuted",
    "C03_block_bad_range_partial",
    "C03_stream_hang_refuted",
    "C03_silent_refuted",
    "C03_output_changes_refuted",
    "C03_zlib_refuted"
   ],
   "note": "True for block cipher transforms as far as C03_block_bad_range_partial says; the full statement is false: stream ciphers hang on huge lengths, negative lengths are silently ignored, a too long range is processed in part before the exception, a decrypting ChaCha20-Poly1305 object reads outside the string (C03_chapoly_decrypt_refuted), and the Zlib objects do not check the range at all (C03_zlib_refuted)."
  },
  {
   "property": "C04",
   "status": "proved",
   "theorems": [
    "C04_chunking"
   ],
   "note": "Every block cipher transform, mode and padding; C05/LibTransform extend it to encodings, stream ciphers and compositions."
  },
  {
   "property": "C05",
   "status": "proved",
   "theorems": [
    "C05_compose_string",
    "C05_compose_history",
    "C05_compose_any"
   ],
   "note": "transform_string of a composition, and histories; any two lawful transforms."
  },
  {
   "property": "C06",
   "status": "proved",
   "theorems": [
    "C06_every_short_read",
    "C06_channel"
   ],
   "note": "Any schedule of short reads, with and without ~len."
  },
  {
   "property": "C07",
   "status": "proved",
   "theorems": [
    "C07_hash_channel"
   ],
   "note": "For every library hash and MAC object other than MD5/HMAC-MD5, whose computation lies in the OCaml runtime."
  },
  {
   "property": "C08",
   "status": "proved",
   "theorems": [
    "C08_modes"
   ],
   "note": "All modes against the block relations of SP 800-38A; CTR up to the limit of C14/C69."
  },
  {
   "property": "C09",
   "status": "proved",
   "theorems": [
    "C09_roundtrip_plain"
   ],
   "note": ""
  },
  {
   "property": "C10",
   "status": "proved",
   "theorems": [
    "C10_roundtrip_padded"
   ],
   "note": ""
  },
  {
   "property": "C11",
   "status": "proved",
   "theorems": [
    "C11_pad_strip",
    "C11_strip_exact"
   ],
   "note": ""
  },
  {
   "property": "C12",
   "status": "proved",
   "theorems": [
    "C12_pad_strip",
    "C12_strip_exact"
   ],
   "note": ""
  },
  {
   "property": "C13",
   "status": "proved",
   "theorems": [
    "C13_increment"
   ],
   "note": ""
  },
  {
   "property": "C14",
   "status": "proved",
   "theorems": [
    "C14_ctr_no_reuse"
   ],
   "note": ""
  },
  {
   "property": "C15",
   "status": "partial",
   "theorems": [
    "C15_gcm_key_size",
    "C15_chapoly_sizes",
    "C15_aes_key_size",
    "C15_des_key_size",
    "C15_blowfish_key_size",
    "C15_iv_size_partial",
    "C15_mac_sizes_partial",
    "C15_blake3_mac_refuted",
    "C15_arcfour_key_size",
    "C15_chacha20_sizes",
    "C15_chacha20_iv_size_refuted"
   ],
   "note": "IV sizes of block modes (ECB ignores the IV), key sizes of AES, DES, triple DES, Blowfish, ARCFOUR, ChaCha20, the AEAD constructors, and all constructors of module MAC. Two exceptions make the full statement false: C15_chacha20_iv_size_refuted (a 12-byte ChaCha20 IV is refused as wrong size when the counter is at least 2^24) and C15_blake3_mac_refuted (MAC.blake3 accepts the empty key, documented as 32 bytes, and computes the unkeyed hash)."
  },
  {
   "property": "C16",
   "status": "partial",
   "theorems": [
    "C16_ranges_partial",
    "C16_cbc_encrypt_refuted",
    "C16_cbc_encrypt_frame",
    "C16_cbc_encrypt_dst"
   ],
   "note": "False for CBC encryption, which reads outside src without check (refuted for every primitive and state); proved for all other modes."
  },
  {
   "property": "C17",
   "status": "proved",
   "theorems": [
    "C17_aes_encrypt",
    "C17_aes_decrypt"
   ],
   "note": "Also the decryption class against the FIPS 197 inverse cipher."
  },
  {
   "property": "C18",
   "status": "proved",
   "theorems": [
    "C18_aes_inverse"
   ],
   "note": ""
  },
  {
   "property": "C19",
   "status": "proved",
   "theorems": [
    "C19_aesni_agrees",
    "C19_aesni_computes"
   ],
   "note": "Intrinsics modelled from their documented pseudo-code; both directions, all key sizes, exceptions included."
  },
  {
   "property": "C20",
   "status": "proved",
   "theorems": [
    "C20_des"
   ],
   "note": "Both directions; out-of-range arguments raise Invalid_argument."
  },
  {
   "property": "C21",
   "status": "proved",
   "theorems": [
    "C21_des_inverse",
    "C21_triple_des",
    "C21_triple_des_inverse"
   ],
   "note": "DES and triple DES (two and three keys) against EDE of FIPS 46-3, both inverses."
  },
  {
   "property": "C22",
   "status": "proved",
   "theorems": [
    "C22_blowfish",
    "C22_blowfish_inverse"
   ],
   "note": "Blowfish against its definition (tables are the digits of pi, computed independently), both inverses."
  },
  {
   "property": "C23",
   "status": "proved",
   "theorems": [
    "C23_arcfour",
    "C23_table_permutation",
    "C23_cipher"
   ],
   "note": "Calls to the method transform in any number, valid or not, and the Cipher transform with any feeding. Applying twice: C25_arcfour."
  },
  {
   "property": "C24",
   "status": "partial",
   "theorems": [
    "C24_chacha20",
    "C24_cipher",
    "C24_all_counters_refuted"
   ],
   "note": "Proved for every counter the constructor accepts. C24_all_counters_refuted: with a 12-byte IV counters from 2^24 on are refused although RFC 8439 allows every 32-bit counter."
  },
  {
   "property": "C25",
   "status": "proved",
   "theorems": [
    "C25_arcfour",
    "C25_chacha20"
   ],
   "note": ""
  },
  {
   "property": "C26",
   "status": "proved",
   "theorems": [
    "C26_sha1"
   ],
   "note": "C implementation (buffering, padding, byte swaps, rounds) against FIPS 180-4, every history of calls."
  },
  {
   "property": "C27",
   "status": "proved",
   "theorems": [
    "C27_sha224",
    "C27_sha256"
   ],
   "note": "C implementation against FIPS 180-4, constants as roots of primes, every history of calls."
  },
  {
   "property": "C28",
   "status": "proved",
   "theorems": [
    "C28_sha384",
    "C28_sha512"
   ],
   "note": "C implementation against FIPS 180-4, every history of calls. SHA-512/224 and /256 are not provided by the library."
  },
  {
   "property": "C29",
   "status": "proved",
   "theorems": [
    "C29_sha3",
    "C29_other_sizes"
   ],
   "note": "C implementation against the bit-level sponge of FIPS 202, every history of calls; other sizes refused."
  },
  {
   "property": "C30",
   "status": "proved",
   "theorems": [
    "C30_ripemd160"
   ],
   "note": "C implementation against the 1996 definition, every history of calls."
  },
  {
   "property": "C31",
   "status": "proved",
   "theorems": [
    "C31_blake2b",
    "C31_blake2s",
    "C31_other_parameters"
   ],
   "note": "C implementation against RFC 7693, every digest size, every key, every history of calls."
  },
  {
   "property": "C32",
   "status": "proved",
   "theorems": [
    "C32_blake3",
    "C32_longer_outputs",
    "C32_other_parameters"
   ],
   "note": "C implementation (chunk state, lazy stack merging, subtree compression) against the recursive tree, messages of less than 2^64 bytes."
  },
  {
   "property": "C33",
   "status": "partial",
   "theorems": [
    "C33_hash_size_partial",
    "C33_hash_size_refuted",
    "C33_md5_size"
   ],
   "note": "False for SHA-224, RIPEMD-160 (refuted; HMAC-RIPEMD-160 inherits hash_size 32); proved for all other hash and MAC objects. MD5 digests come from the OCaml runtime."
  },
  {
   "property": "C34",
   "status": "partial",
   "theorems": [
    "C34_chunking",
    "C34_md5_refuted"
   ],
   "note": "Proved for all library hash and MAC objects but MD5; refuted for MD5 when one call adds 2^32 bytes."
  },
  {
   "property": "C35",
   "status": "partial",
   "theorems": [
    "C35_md5_partial",
    "C35_md5_refuted"
   ],
   "note": "True if no single call adds 2^32 bytes or more; false otherwise (C35_md5_refuted): the length is truncated to a 32-bit unsigned. The MD5 computation itself belongs to the OCaml runtime and is a parameter."
  },
  {
   "property": "C36",
   "status": "partial",
   "theorems": [
    "C36_hmac",
    "C36_hmac_md5_partial"
   ],
   "note": "Proved for HMAC over SHA-1, SHA-256, SHA-384, SHA-512, RIPEMD-160 for all keys and messages; HMAC-MD5 for totals below 2^32 bytes (MD5 stub truncates, see C35)."
  },
  {
   "property": "C37",
   "status": "proved",
   "theorems": [
    "C37_cmac"
   ],
   "note": "For any block cipher of 16-byte blocks, hence for AES."
  },
  {
   "property": "C38",
   "status": "proved",
   "theorems": [
    "C38_block_mac",
    "C38_last_block",
    "C38_wrong_iv",
    "C38_final_triple",
    "C38_final_triple_key"
   ],
   "note": "For any block cipher family; CBC encryption as in C10."
  },
  {
   "property": "C39",
   "status": "proved",
   "theorems": [
    "C39_siphash",
    "C39_other_parameters"
   ],
   "note": ""
  },
  {
   "property": "C40",
   "status": "proved",
   "theorems": [
    "C40_poly1305_64",
    "C40_poly1305_32",
    "C40_machine"
   ],
   "note": "Both limb variants, any splitting into pieces. Overflow: the theorem holds for every w that is right on results that fit, so no sum or product of the code overflows. Truncations the code relies on (left shifts, borrow) are explicit in the model."
  },
  {
   "property": "C41",
   "status": "proved",
   "theorems": [
    "C41_table_is_algorithm_1",
    "C41_algorithm_1_is_field"
   ],
   "note": "Table code = SP 800-38D Algorithm 1, and Algorithm 1 = polynomial multiplication modulo x^128+x^7+x^2+x+1."
  },
  {
   "property": "C42",
   "status": "proved",
   "theorems": [
    "C42_pclmul",
    "C42_stubs"
   ],
   "note": "Intrinsics are modelled by their documented effect on 128-bit integers."
  },
  {
   "property": "C43",
   "status": "proved",
   "theorems": [
    "C43_gcm"
   ],
   "note": "Software AES or AES instructions, GHASH with or without carry-less multiplication, any IV length; beyond 2^36-32 bytes Message_too_long."
  },
  {
   "property": "C44",
   "status": "proved",
   "theorems": [
    "C44_gcm_round_trip",
    "C44_gcm_check",
    "C44_chapoly_round_trip",
    "C44_chapoly_check",
    "C44_short"
   ],
   "note": "Both AEADs: round trip, and acceptance of an arbitrary string if and only if its last 16 bytes are the tag."
  },
  {
   "property": "C45",
   "status": "proved",
   "theorems": [
    "C45_chapoly"
   ],
   "note": "64-bit and 32-bit Poly1305, keys of 16 or 32 bytes, IVs of 8 or 12 bytes."
  },
  {
   "property": "C46",
   "status": "partial",
   "theorems": [
    "C46_gcm",
    "C46_chapoly_partial",
    "C46_chapoly_refuted"
   ],
   "note": "Proved for GCM, for ChaCha20-Poly1305 with 8-byte IVs, and with 12-byte IVs up to the limit of RFC 8439 (2^38-64 bytes). False at the code's limit of 2^38 bytes (C46_chapoly_refuted): the last block reuses the keystream block of the Poly1305 key."
  },
  {
   "property": "C47",
   "status": "partial",
   "theorems": [
    "C47_then_hash",
    "C47_and_hash",
    "C47_then_hash_any",
    "C47_and_hash_any",
    "C47_then_hash_check",
    "C47_and_hash_check",
    "C47_round_trip_partial",
    "C47_round_trip_plain_partial",
    "C47_wrong_size_refuted"
   ],
   "note": "Both combinators for every transform of the library other than compression, compositions included, and every hash or MAC whose tag has hash_size bytes. False for SHA-224 and RIPEMD-160 (C47_wrong_size_refuted), whose hash_size is wrong: nothing is ever accepted."
  },
  {
   "property": "C48",
   "status": "partial",
   "theorems": [
    "C48_seeds_exact",
    "C48_stream",
    "C48_seeds_partial",
    "C48_seeds_refuted"
   ],
   "note": "The stream is ChaCha20 (C48_stream). Distinct seeds: false in general (refuted: padding collisions between lengths); true for equal lengths (partial); exact condition in C48_seeds_exact."
  },
  {
   "property": "C49",
   "status": "proved",
   "theorems": [
    "C49_stream"
   ],
   "note": "AES counter-mode stream for software and AES-NI ciphers; valid requests."
  },
  {
   "property": "C50",
   "status": "proved",
   "theorems": [
    "C50_device",
    "C50_system",
    "C50_hardware"
   ],
   "note": "Device, getentropy and RDRAND generators."
  },
  {
   "property": "C51",
   "status": "partial",
   "theorems": [
    "C51_of_bytes",
    "C51_to_bytes_partial",
    "C51_to_bytes_refuted",
    "C51_to_bytes_default",
    "C51_mod_power_partial",
    "C51_mod_power_limits",
    "C51_mod_mult_partial"
   ],
   "note": "to_bytes ~numbits returns n exactly for the sizes filling whole 8-byte limbs (equivalence proved) and raises Invalid_argument for others (refuted); mod_power needs a positive exponent and an odd modulus, as Z.powm_sec refuses the rest; of_bytes and to_bytes without size hold without restriction."
  },
  {
   "property": "C52",
   "status": "partial",
   "theorems": [
    "C52_roundtrip_partial",
    "C52_results",
    "C52_roundtrip_refuted"
   ],
   "note": "Round trip and length proved for key sizes filling whole 8-byte limbs; for the others the exact outcome is given by C52_results and the refutation shows a valid key for which encrypt and sign raise."
  },
  {
   "property": "C53",
   "status": "partial",
   "theorems": [
    "C53_exact",
    "C53_crt_partial",
    "C53_crt_refuted"
   ],
   "note": "Equality with the plain operations proved when q < p; refuted for p < q. C53_exact gives the result of decrypt_CRT in all cases: the right one, or n minus it under an exact condition."
  },
  {
   "property": "C54",
   "status": "partial",
   "theorems": [
    "C54_valid",
    "C54_total_partial",
    "C54_wrong_sizes",
    "C54_total_refuted",
    "C54_size_refuted",
    "C54_even_exponent"
   ],
   "note": "Validity of every returned key proved for all sources of randomness; absence of failure proved for sizes made of whole limbs; refuted: sizes such as 32 never give a key, the modulus may be one bit short; even exponents never terminate. Z.nextprime is only assumed to return primes."
  },
  {
   "property": "C55",
   "status": "partial",
   "theorems": [
    "C55_roundtrip_partial",
    "C55_total_partial",
    "C55_zero_refuted",
    "C55_new_key"
   ],
   "note": "Round trip proved for all messages strictly between 0 and n, and totality up to the loop waiting for suitable randomness; refuted for 0, which encrypt refuses."
  },
  {
   "property": "C56",
   "status": "proved",
   "theorems": [
    "C56_sum",
    "C56_add"
   ],
   "note": "For any tree of additions of encryptions; the encryptions are those that encrypt can return, hence of non-zero messages (see C55)."
  },
  {
   "property": "C57",
   "status": "partial",
   "theorems": [
    "C57_exact",
    "C57_agree",
    "C57_agreement_partial",
    "C57_agreement_refuted",
    "C57_private_secret",
    "C57_new_parameters",
    "C57_once_partial",
    "C57_once_refuted"
   ],
   "note": "Agreement proved when p fills whole limbs, refuted otherwise; erasure proved for secrets of 63 bits or more, refuted for smaller ones. C57_exact gives results and erasure in all cases, C57_agree the agreement whenever no exception is raised."
  },
  {
   "property": "C58",
   "status": "proved",
   "theorems": [
    "C58_derive_key"
   ],
   "note": "For all versions, secrets and lengths; the hash is SHA-256 as in the code, where the interface documentation says SHA-1."
  },
  {
   "property": "C59",
   "status": "proved",
   "theorems": [
    "C59_base64_round_trip"
   ],
   "note": ""
  },
  {
   "property": "C60",
   "status": "partial",
   "theorems": [
    "C60_base64_decode_partial",
    "C60_wellformed_accepted",
    "C60_illformed_accepted_refuted"
   ],
   "note": "The decoder is laxer than the statement: exact accepted language proved, witnesses of ill-formed accepted texts, all well-formed texts accepted."
  },
  {
   "property": "C61",
   "status": "partial",
   "theorems": [
    "C61_line_length_refuted",
    "C61_unterminated_refuted",
    "C61_layout_partial"
   ],
   "note": "False: lines have 72 characters, last newline sometimes missing. Exact layout proved."
  },
  {
   "property": "C62",
   "status": "proved",
   "theorems": [
    "C62_hexa_round_trip",
    "C62_hexa_decode",
    "C62_accepts_iff"
   ],
   "note": ""
  },
  {
   "property": "C63",
   "status": "proved",
   "theorems": [
    "C63_string_equal"
   ],
   "note": ""
  },
  {
   "property": "C64",
   "status": "proved",
   "theorems": [
    "C64_constant_time"
   ],
   "note": "Instrumented model: sequence of element accesses; timing of a single access or of machine instructions is not modelled."
  },
  {
   "property": "C65",
   "status": "proved",
   "theorems": [
    "C65_xor_disjoint",
    "C65_xor_any"
   ],
   "note": "Also for overlapping ranges: word-wise and byte-wise code agree."
  },
  {
   "property": "C66",
   "status": "partial",
   "theorems": [
    "C66_block_safe_partial",
    "C66_stream_safe_partial",
    "C66_hash_safe_partial",
    "C66_mac_safe_partial",
    "C66_aes_unwiped_partial",
    "C66_aes_wiped",
    "C66_aes_refuted",
    "C66_sha3_wiped",
    "C66_block_erased",
    "C66_block_erased_used",
    "C66_block_erased_ctr",
    "C66_arcfour_erased",
    "C66_chacha_erased",
    "C66_arcfour_identity",
    "C66_gcm_not_erased",
    "C66_gcm_refuted",
    "C66_rng_not_erased",
    "C66_hmac_refuted"
   ],
   "note": "Memory safety of every sequence of calls, wipe included, is proved for DES, triple DES, Blowfish, RC4, ChaCha20, SHA-1, SHA-2, RIPEMD-160, BLAKE2, SipHash, HMAC over these and the DES and Blowfish MACs. It is false for AES (every mode, CBC-MAC), SHA-3/Keccak and BLAKE3 after wipe (C66_aes_wiped, C66_aes_refuted, C66_sha3_wiped); for AES and SHA-3 it is proved as long as wipe is not called. Erasure is proved for every block cipher class, mode and padding and for RC4 and ChaCha20; it is false for AES-GCM, pseudo_rng_aes_ctr and HMAC (C66_gcm_not_erased, C66_gcm_refuted, C66_rng_not_erased, C66_hmac_refuted). The other objects and the combinations are in C82 and C83. BLAKE3 before wipe is C82_blake3."
  },
  {
   "property": "C67",
   "status": "partial",
   "theorems": [
    "C67_stubs_partial",
    "C67_cook",
    "C67_final",
    "C67_siphash_init_refuted",
    "C67_ghash_init_refuted"
   ],
   "note": "Proved for all the stubs, with arbitrary C functions, except caml_siphash_init and caml_ghash_init, for which it is false: neither registers its argument before allocating (C67_siphash_init_refuted, C67_ghash_init_refuted)."
  },
  {
   "property": "C68",
   "status": "partial",
   "theorems": [
    "C68_compress_partial",
    "C68_uncompress_partial",
    "C68_compress_string_partial",
    "C68_uncompress_string_partial",
    "C68_compress_terminates_partial",
    "C68_uncompress_terminates_partial",
    "C68_compress_refuted",
    "C68_uncompress_refuted"
   ],
   "note": "Proved for every recorded zlib (an arbitrary function), every chunking of calls below 4 GiB each, output below the buffer limit: what the object hands to zlib and returns is exactly the input consumed and the output produced, and the loops terminate whenever zlib makes progress. The full statement is false: beyond 4 GiB per call data is skipped (C68_compress_refuted), and uncompress#finish feeds a byte that the caller never gave, so a truncated stream can be accepted (C68_uncompress_refuted). zlib itself is not modelled."
  },
  {
   "property": "C69",
   "status": "partial",
   "theorems": [
    "C69_ctr_full_period_refuted",
    "C69_ctr_accepts_partial",
    "C69_exact"
   ],
   "note": "False: one block less than fits is accepted (refuted); C69_exact gives the exact condition of acceptance and of Message_too_long, for every message."
  },
  {
   "property": "C70",
   "status": "proved",
   "theorems": [
    "C70_des_parity",
    "C70_triple_single"
   ],
   "note": "equality of the constructed objects; triple DES with equal parts is DES"
  },
  {
   "property": "C71",
   "status": "partial",
   "theorems": [
    "C71_output_blocks",
    "C71_input_blocks",
    "C71_plain_lengths",
    "C71_padded_encrypt_lengths",
    "C71_padded_decrypt_lengths",
    "C71_whole_blocks_partial",
    "C71_compose_refuted",
    "C71_empty_refuted"
   ],
   "note": "whole-block inputs are accepted for single transforms and non-empty messages; refuted for compositions (input_block_size 1 but Wrong_data_length) and for the empty message in padded decryption; the other parts proved in full"
  },
  {
   "property": "C72",
   "status": "partial",
   "theorems": [
    "C72_flush",
    "C72_flush_continue_partial",
    "C72_flush_padded_refuted"
   ],
   "note": "proved for histories in which no call raises; refuted: padded decryption flushed after its last block, finish then raises"
  },
  {
   "property": "C73",
   "status": "proved",
   "theorems": [
    "C73_modes",
    "C73_two_messages",
    "C73_gcm",
    "C73_chapoly"
   ],
   "note": ""
  },
  {
   "property": "C74",
   "status": "proved",
   "theorems": [
    "C74_chapoly",
    "C74_gcm",
    "C74_chapoly_injective",
    "C74_gcm_injective"
   ],
   "note": "the injectivity theorems are about the encoded string; that equal tags imply equal strings is the security of the one-time MAC and not claimed"
  },
  {
   "property": "C75",
   "status": "partial",
   "theorems": [
    "C75_hash",
    "C75_block_mac_partial",
    "C75_block_mac_refuted",
    "C75_block_mac_state_refuted"
   ],
   "note": "proved for hashes, HMAC, BLAKE and SipHash; for the CBC-MACs ranges of positive length are refused; refuted: a negative length is accepted, and a refused call changes the state"
  },
  {
   "property": "C76",
   "status": "proved",
   "theorems": [
    "C76_value",
    "C76_uniform",
    "C76_uniform_odd",
    "C76_private_secret"
   ],
   "note": "Value as a function of the bytes drawn, and equal numbers of preimages."
  },
  {
   "property": "C77",
   "status": "proved",
   "theorems": [
    "C77_zeros",
    "C77_long"
   ],
   "note": "Both kinds of equivalent keys, all the HMACs."
  },
  {
   "property": "C78",
   "status": "partial",
   "theorems": [
    "C78_prefix",
    "C78_boundary",
    "C78_overlap",
    "C78_sha1_refuted"
   ],
   "note": "the relations are proved; the claim that the hash is SHA-1, as documented, is refuted"
  },
  {
   "property": "C79",
   "status": "proved",
   "theorems": [
    "C79_no_entropy"
   ],
   "note": "Every function that takes a generator, with the generator that fails."
  },
  {
   "property": "C80",
   "status": "partial",
   "theorems": [
    "C80_arcfour_partial",
    "C80_chacha20_partial",
    "C80_arcfour_refuted",
    "C80_chacha20_refuted"
   ],
   "note": "proved for all calls whose destination does not begin inside the source (in place, disjoint, backward overlap); refuted for the others, about which the documentation says nothing"
  },
  {
   "property": "C81",
   "status": "proved",
   "theorems": [
    "C81_source",
    "C81_none",
    "C81_stuck",
    "C81_working",
    "C81_test_ends",
    "C81_system",
    "C81_hardware"
   ],
   "note": "All the sources and sequences of requests; the Windows generator is in C92."
  },
  {
   "property": "C82",
   "status": "partial",
   "theorems": [
    "C82_transforms",
    "C82_hashes",
    "C82_blake3",
    "C82_authenticated",
    "C82_chapoly_decrypt_partial",
    "C82_chapoly_decrypt_refuted"
   ],
   "note": "Proved for all objects and combinations without AES and SHA-3, and for all of them as long as wipe is not called. After wipe it is false of AES and SHA-3 (C66_aes_wiped, C66_sha3_wiped); it is false of ChaCha20-Poly1305 decryption when put_substring is given an invalid range (C82_chapoly_decrypt_refuted), for which it is proved for valid ranges. BLAKE3 before wipe is C82_blake3, for messages under 2^64 bytes. Not covered: MD5, zlib (C68)."
  },
  {
   "property": "C83",
   "status": "partial",
   "theorems": [
    "C83_base64_encode",
    "C83_base64_decode",
    "C83_hexa_encode",
    "C83_hexa_decode",
    "C83_hashes",
    "C83_keyed_hashes",
    "C83_block_macs",
    "C83_cmac",
    "C83_des3_mac",
    "C83_compose",
    "C83_then_hash",
    "C83_and_hash",
    "C83_chapoly_encrypt",
    "C83_chapoly_decrypt",
    "C83_zlib_kept",
    "C83_zlib_output",
    "C83_zlib_refuted"
   ],
   "note": "Proved for Base64, hexadecimal, SHA-1, SHA-2, SHA-3, RIPEMD-160, BLAKE2, BLAKE3, SipHash, CBC-MACs, CMAC, ChaCha20-Poly1305, combinations, and the data of HMAC; false for zlib (C83_zlib_refuted, C83_zlib_kept), for the key of HMAC and for GCM (C66). The buffers that buffered_output drops when it grows, and those lent by get_substring, are not part of the object and are not erased."
  },
  {
   "property": "C84",
   "status": "partial",
   "theorems": [
    "C84_transform_string",
    "C84_transform_channel",
    "C84_hash_string",
    "C84_hash_channel",
    "C84_auth",
    "C84_auth_check",
    "C84_exception_refuted"
   ],
   "note": "Proved when the functions return; false when they raise (C84_exception_refuted)."
  },
  {
   "property": "C85",
   "status": "proved",
   "theorems": [
    "C85_rsa_encrypt",
    "C85_rsa_decrypt",
    "C85_rsa_decrypt_CRT",
    "C85_rsa_new_key",
    "C85_paillier_encrypt",
    "C85_paillier_decrypt",
    "C85_paillier_add",
    "C85_paillier_new_key",
    "C85_dh_message",
    "C85_dh_shared_secret",
    "C85_rsa_session",
    "C85_paillier_session",
    "C85_dh_session",
    "C85_dh_new_parameters",
    "C85_dh_private_secret",
    "C85_dh_exchange"
   ],
   "note": "The functions on values are those of C51-C57. ZArith is an oracle: any value it returns is right; Z.powm_sec and Z.of_bits return new numbers. Memory that the collector or GMP copies is not modelled. C85_dh_exchange goes from new_parameters to the two shared secrets."
  },
  {
   "property": "C86",
   "status": "partial",
   "theorems": [
    "C86_rsa_encrypt",
    "C86_rsa_decrypt",
    "C86_exception_kept",
    "C86_crt_partial",
    "C86_crt_refuted",
    "C86_new_key_partial",
    "C86_new_key_kept",
    "C86_new_key_refuted",
    "C86_paillier_partial",
    "C86_paillier_refuted",
    "C86_paillier_encrypt_kept",
    "C86_paillier_new_key_partial",
    "C86_paillier_new_key_kept",
    "C86_dh_kept",
    "C86_dh_private_secret",
    "C86_dh_new_parameters_partial",
    "C86_rsa_wipe_key",
    "C86_paillier_wipe_key",
    "C86_wipe_new_key",
    "C86_paillier_wipe_new_key"
   ],
   "note": "Proved for RSA.encrypt and RSA.decrypt when they return, for DH.private_secret, and for wipe_key. False when Message_too_long is raised (d remains, C86_exception_kept); for decrypt_CRT, which leaves numbers that give a factor of n (C86_crt_refuted; all that may remain is listed in C86_crt_partial); for RSA.new_key, which leaves (p-1)(q-1) always (C86_new_key_kept), and p-1, q-1 (C86_new_key_refuted); for Paillier's encrypt (the message), decrypt and new_key; for DH.shared_secret (the secret); DH.new_parameters erases nothing (C86_dh_new_parameters_partial lists what may remain)."
  },
  {
   "property": "C87",
   "status": "partial",
   "theorems": [
    "C87_same_behaviour",
    "C87_small_output_partial",
    "C87_kept",
    "C87_kept_first_call",
    "C87_buffer_kept",
    "C87_refuted"
   ],
   "note": "False (C87_refuted): ensure_capacity drops the array that is too short without erasing it. Proved: exactly what stays when it grows (C87_kept, C87_kept_first_call, C87_buffer_kept); the claim holds if the output is fetched before 256 - blocksize bytes (or blocksize, if larger) are pending (C87_small_output_partial). Copies made by the collector are not modelled."
  },
  {
   "property": "C88",
   "status": "proved",
   "theorems": [
    "C88_calls",
    "C88_library",
    "C88_in_place",
    "C88_inverse",
    "C88_moved_up"
   ],
   "note": ""
  },
  {
   "property": "C89",
   "status": "proved",
   "theorems": [
    "C89_encodings",
    "C89_hexa_strings",
    "C89_zlib",
    "C89_ciphers",
    "C89_hashes",
    "C89_authenticated"
   ],
   "note": ""
  },
  {
   "property": "C90",
   "status": "partial",
   "theorems": [
    "C90_programs",
    "C90_frame",
    "C90_independent_partial",
    "C90_seed_lost",
    "C90_independent_refuted",
    "C90_wiped_answers"
   ],
   "note": "False when one string is the seed of two generators (C90_seed_lost, C90_independent_refuted): wipe overwrites the caller's string with zeros, so a generator made from it afterwards gives the stream of a seed of zeros. C90_independent_partial: true if each string is the seed of one generator at most. C90_programs describes every program in which no wiped generator is asked; C90_wiped_answers the wiped pseudo_rng."
  },
  {
   "property": "C91",
   "status": "partial",
   "theorems": [
    "C91_hashes_partial",
    "C91_hashes64_partial",
    "C91_wide",
    "C91_exact",
    "C91_exact64",
    "C91_lost_refuted",
    "C91_length_refuted",
    "C91_chacha20",
    "C91_blowfish",
    "C91_arcfour_partial",
    "C91_arcfour_exact",
    "C91_arcfour_refuted",
    "C91_xor_partial",
    "C91_xor_exact",
    "C91_xor_refuted"
   ],
   "note": "False where C's long has 32 bits: C91_lost_refuted (a string of 2^32 bytes has the digest of the empty string), C91_length_refuted (wrong length field in SHA-384/512), C91_arcfour_refuted and C91_xor_refuted (calls that return and do nothing). True without condition where it has 64 bits, in both byte orders (C91_wide), and for pieces below the bounds of the _partial theorems otherwise; C91_exact, C91_exact64, C91_arcfour_exact and C91_xor_exact say what is computed in every case. ChaCha20 and Blowfish hold on every machine."
  },
  {
   "property": "C92",
   "status": "partial",
   "theorems": [
    "C92_exact",
    "C92_filled_refuted",
    "C92_programs_partial",
    "C92_wiped_twice_refuted"
   ],
   "note": "C92_exact says what is written in every case, C92_programs_partial covers programs that do not use wiped generators, with requests below 2^32 bytes. The full claim is false: C92_filled_refuted (a request for 2^32 bytes succeeds without writing anything), C92_wiped_twice_refuted (the second wipe of a generator closes another one)."
  },
  {
   "property": "C93",
   "status": "partial",
   "theorems": [
    "C93_transforms",
    "C93_hashes",
    "C93_blake3",
    "C93_authenticated_partial",
    "C93_gcm_partial"
   ],
   "note": "All transforms, their compositions, all hashes and MACs but MD5 (whose context belongs to the OCaml runtime), the combinations of transforms and hashes, ChaCha20-Poly1305; for AES-GCM, the exact list of what is zero and what stays (C93_gcm_partial). The full claim is false of AES-GCM, HMAC and pseudo_rng_aes_ctr: C66_gcm_refuted, C66_hmac_refuted, C66_rng_not_erased."
  },
  {
   "property": "C94",
   "status": "proved",
   "theorems": [
    "C94_chacha20_poly1305"
   ],
   "note": "Stated on the two messages that the decryption object accepts; the confidentiality of the key and the randomness of the keystream are assumptions on ChaCha20 outside of the claim."
  },
  {
   "property": "C95",
   "status": "proved",
   "theorems": [
    "C95_aes_gcm"
   ],
   "note": "As C94, on AES."
  },
  {
   "property": "C96",
   "status": "proved",
   "theorems": [
    "C96_sha1",
    "C96_sha224",
    "C96_sha256",
    "C96_sha384",
    "C96_sha512",
    "C96_ripemd160",
    "C96_sha3",
    "C96_blake2b",
    "C96_blake2s",
    "C96_blake3"
   ],
   "note": "Messages below the limits of the standards (2^64 or 2^128 bits, BLAKE2 counters, BLAKE3 2^64 bytes). For SHA-3 and Keccak, whose padding does not contain the length, a third case: a beginning of one of the messages leads back to the initial state."
  },
  {
   "property": "C97",
   "status": "partial",
   "theorems": [
    "C97_hmac",
    "C97_keys_refuted"
   ],
   "note": "The part on keys of different lengths is false of HMAC itself (RFC 2104 pads keys with zeroes): C97_keys_refuted. HMAC-MD5 is not covered: its hash is the OCaml runtime's."
  },
  {
   "property": "C98",
   "status": "proved",
   "theorems": [
    "C98_permutation",
    "C98_sha3",
    "C98_converse"
   ],
   "note": "C98_permutation, C98_sha3, C98_converse; no bound on the lengths."
  },
  {
   "property": "C99",
   "status": "proved",
   "theorems": [
    "C99_extension",
    "C99_one_block",
    "C99_one_block_cmac",
    "C99_one_block_final_triple",
    "C99_same_length"
   ],
   "note": "C99_extension, C99_one_block, C99_one_block_cmac, C99_one_block_final_triple, C99_same_length; no bound on the lengths."
  },
  {
   "property": "C100",
   "status": "proved",
   "theorems": [
    "C100_by_size",
    "C100_refused",
    "C100_sizes_differ"
   ],
   "note": "C100_by_size, C100_refused, C100_sizes_differ."
  },
  {
   "property": "C101",
   "status": "proved",
   "theorems": [
    "C101_blowfish",
    "C101_arcfour",
    "C101_repeated",
    "C101_triple_two",
    "C101_triple_neighbours",
    "C101_hmac_zeros",
    "C101_hmac_long"
   ],
   "note": "C101_blowfish, C101_arcfour, C101_repeated, C101_triple_two, C101_triple_neighbours, C101_hmac_zeros, C101_hmac_long (HMAC over the hashes of C36 other than MD5)."
  },
  {
   "property": "C102",
   "status": "proved",
   "theorems": [
    "C102_complement",
    "C102_triple_complement",
    "C102_weak_keys"
   ],
   "note": "C102_complement, C102_triple_complement, C102_weak_keys."
  },
  {
   "property": "C103",
   "status": "proved",
   "theorems": [
    "C103_local",
    "C103_resync",
    "C103_cbc_flip",
    "C103_cbc_flip_iv",
    "C103_cfb_flip"
   ],
   "note": "C103_local, C103_resync, C103_cbc_flip, C103_cbc_flip_iv, C103_cfb_flip. For OFB and CTR the changed bits are C73."
  },
  {
   "property": "C104",
   "status": "proved",
   "theorems": [
    "C104_modes",
    "C104_chacha20"
   ],
   "note": "C104_modes, C104_chacha20. OFB with chunks shorter than a block keeps bytes the caller never sees, so no IV can be given in general. With a 12-byte IV ChaCha20 refuses counters from 2^24 on (C24)."
  },
  {
   "property": "C105",
   "status": "proved",
   "theorems": [
    "C105_writes",
    "C105_reads",
    "C105_wiped",
    "C105_late_refuted",
    "C105_late_read_refuted"
   ],
   "note": "C105_writes, C105_reads, C105_wiped; C105_late_refuted and C105_late_read_refuted show that the condition (no production in between) is needed, as the documentation warns."
  },
  {
   "property": "C106",
   "status": "proved",
   "theorems": [
    "C106_shared",
    "C106_wipes",
    "C106_library",
    "C106_objects",
    "C106_wipe_refuted",
    "C106_stateful_refuted"
   ],
   "note": "C106_shared, C106_wipes, C106_library, C106_objects. C106_wipe_refuted and C106_stateful_refuted show that the two conditions are needed. One object used in two places of the same MAC (class mac_final_triple) is not covered."
  },
  {
   "property": "C107",
   "status": "proved",
   "theorems": [
    "C107_messages",
    "C107_calls",
    "C107_exception_refuted"
   ],
   "note": "C107_messages, C107_calls; C107_exception_refuted: at finish the two groupings can raise different exceptions, because one hands on pending output first."
  },
  {
   "property": "C108",
   "status": "proved",
   "theorems": [
    "C108_queue",
    "C108_queue_32",
    "C108_same",
    "C108_model",
    "C108_same_refuted"
   ],
   "note": "C108_queue, C108_queue_32, C108_same, C108_model; C108_same_refuted: without the condition the two machines differ."
  },
  {
   "property": "C109",
   "status": "proved",
   "theorems": [
    "C109_sha1",
    "C109_sha256",
    "C109_sha512",
    "C109_ripemd160",
    "C109_sha1_pairs",
    "C109_sha256_pairs",
    "C109_sha512_pairs",
    "C109_ripemd160_pairs"
   ],
   "note": "C109_sha1, C109_sha256, C109_sha512, C109_ripemd160 and the _pairs theorems. SHA-224 and SHA-384 show only part of their state and are not concerned."
  },
  {
   "property": "C110",
   "status": "proved",
   "theorems": [
    "C110_decrypt_product",
    "C110_sign_product",
    "C110_any_signature",
    "C110_guess"
   ],
   "note": "C110_decrypt_product, C110_sign_product, C110_any_signature, C110_guess. For sizes that do not fill whole limbs see C52."
  },
  {
   "property": "C111",
   "status": "proved",
   "theorems": [
    "C111_any_message",
    "C111_fixed",
    "C111_order",
    "C111_product"
   ],
   "note": "C111_any_message, C111_fixed, C111_order, C111_product."
  },
  {
   "property": "C112",
   "status": "proved",
   "theorems": [
    "C112_recover",
    "C112_one_bit"
   ],
   "note": "C112_recover, C112_one_bit."
  },
  {
   "property": "C113",
   "status": "proved",
   "theorems": [
    "C113_prefix",
    "C113_ecb",
    "C113_cbc"
   ],
   "note": "C113_prefix, C113_ecb, C113_cbc."
  },
  {
   "property": "C114",
   "status": "proved",
   "theorems": [
    "C114_no_repeat"
   ],
   "note": "C114_no_repeat."
  },
  {
   "property": "C115",
   "status": "proved",
   "theorems": [
    "C115_chapoly",
    "C115_gcm"
   ],
   "note": "C115_chapoly, C115_gcm."
  },
  {
   "property": "C116",
   "status": "proved",
   "theorems": [
    "C116_same",
    "C116_reads",
    "C116_tables",
    "C116_first",
    "C116_key"
   ],
   "note": "C116_same, C116_reads, C116_tables, C116_first, C116_key."
  },
  {
   "property": "C117",
   "status": "proved",
   "theorems": [
    "C117_p",
    "C117_q"
   ],
   "note": "C117_p, C117_q."
  },
  {
   "property": "C118",
   "status": "partial",
   "theorems": [
    "C118_refuted",
    "C118_blake3",
    "C118_mac_no_padding",
    "C118_sha1",
    "C118_sha2",
    "C118_ripemd160",
    "C118_sha3",
    "C118_blake2b",
    "C118_blake2s",
    "C118_mac",
    "C118_cmac",
    "C118_final_triple",
    "C118_siphash",
    "C118_hmac"
   ],
   "note": "The full claim is false (C118_refuted: SHA-1). It is proved of BLAKE3 and of CBC-MAC without padding (C118_blake3, C118_mac_no_padding); for SHA-1, SHA-2, RIPEMD-160, SHA-3, Keccak, BLAKE2, CBC-MAC with padding, CMAC, DES-final-triple-DES, SipHash and HMAC (but not HMAC-MD5) the exact value of every later call is proved (C118_sha1, C118_sha2, C118_ripemd160, C118_sha3, C118_blake2b, C118_blake2s, C118_mac, C118_cmac, C118_final_triple, C118_siphash, C118_hmac). Not treated: MD5, whose context is in the OCaml runtime."
  },
  {
   "property": "C119",
   "status": "proved",
   "theorems": [
    "C119_device",
    "C119_system",
    "C119_aes",
    "C119_chacha_seed"
   ],
   "note": "C119_device, C119_system, C119_aes, C119_chacha_seed."
  },
  {
   "property": "C120",
   "status": "partial",
   "theorems": [
    "C120_refuted",
    "C120_blake3",
    "C120_sha3",
    "C120_mac",
    "C120_cmac",
    "C120_sha1",
    "C120_sha2",
    "C120_ripemd160",
    "C120_hmac",
    "C120_final_triple",
    "C120_siphash",
    "C120_blake2b",
    "C120_blake2s"
   ],
   "note": "The full claim is false (C120_refuted: SHA-1). It is proved of BLAKE3 (C120_blake3); for SHA-1, SHA-2, RIPEMD-160, SHA-3, Keccak, BLAKE2, HMAC, CBC-MAC, CMAC, SipHash and the MAC with a final triple DES every result of every sequence is given exactly (C120_sha1, C120_sha2, C120_ripemd160, C120_sha3, C120_blake2b, C120_blake2s, C120_hmac, C120_mac, C120_cmac, C120_siphash, C120_final_triple). Not treated: MD5 and HMAC-MD5."
  }
 ]
}