{
 "claims": [
  {
   "property": "C01",
   "status": "proved",
   "theorems": [
    "aes_encipher_is_fips197",
    "aes_encipher_any_key"
   ],
   "note": "Key schedule and block function of aes.c against an independent FIPS-197 specification."
  },
  {
   "property": "C02",
   "status": "proved",
   "theorems": [
    "aes_decipher_encipher",
    "aes_encipher_decipher",
    "aes_encipher_block_shape",
    "aes_decipher_block_shape"
   ],
   "note": "Both directions, for every key string and every 16-byte block."
  },
  {
   "property": "C03",
   "status": "proved",
   "theorems": [
    "chacha_encipher_is_core",
    "chacha_key_state",
    "chacha_decipher_encipher",
    "chacha_encipher_decipher",
    "chacha_one_block_opens_all_refuted",
    "chacha_short_keys_equal_refuted",
    "chacha_key_tail_ignored_refuted"
   ],
   "note": "Against an independent ChaCha20 specification. The _refuted theorems record weaknesses: the keystream block is constant per key, keys shorter than 4 bytes are all equal, key bytes after 16 are ignored unless the key has 32 bytes."
  },
  {
   "property": "C04",
   "status": "proved",
   "theorems": [
    "serpent_decipher_encipher_any",
    "serpent_encipher_decipher_any",
    "serpent_decipher_encipher",
    "serpent_encipher_decipher",
    "serpent_encipher_shape"
   ],
   "note": "Any key schedule content, any value of the uninitialised registers."
  },
  {
   "property": "C05",
   "status": "partial",
   "theorems": [
    "serpent_half_block_refuted"
   ],
   "note": "REFUTED: bytes 16..31 of every 32-byte block are left in the clear for every key."
  },
  {
   "property": "C06",
   "status": "proved",
   "theorems": [
    "twofish_decipher_encipher_any",
    "twofish_encipher_decipher_any",
    "twofish_decipher_encipher",
    "twofish_encipher_decipher",
    "twofish_encipher_shape",
    "twofish_key_tail_ignored_refuted"
   ],
   "note": ""
  },
  {
   "property": "C07",
   "status": "proved",
   "theorems": [
    "cipher_round_trip_all",
    "cipher_encipher_succeeds",
    "cipher_acquired_round_trip",
    "cipher_region_round_trip"
   ],
   "note": "All four ciphers and five modes; the last theorem covers ciphertext that went through a file."
  },
  {
   "property": "C08",
   "status": "proved",
   "theorems": [
    "cipher_is_sp80038a",
    "cipher_is_sp80038a_cfb8"
   ],
   "note": ""
  },
  {
   "property": "C09",
   "status": "proved",
   "theorems": [
    "cipher_padding",
    "cipher_encipher_in_bounds",
    "cipher_decipher_in_bounds"
   ],
   "note": ""
  },
  {
   "property": "C10",
   "status": "proved",
   "theorems": [
    "ctr_counters_distinct"
   ],
   "note": ""
  },
  {
   "property": "C11",
   "status": "partial",
   "theorems": [
    "keystream_shared_refuted"
   ],
   "note": "REFUTED: CTR and OFB use the same keystream for every message of one CipherInfo."
  },
  {
   "property": "C12",
   "status": "proved",
   "theorems": [
    "SHA256_stream",
    "sha256_constants",
    "sha2_initial_values"
   ],
   "note": "Every splitting into updates, against FIPS 180-4 with constants derived from square and cube roots of primes; both byte orders of the host."
  },
  {
   "property": "C13",
   "status": "proved",
   "theorems": [
    "SHA512_stream",
    "SHA384_stream",
    "sha512_constants",
    "sha2_initial_values"
   ],
   "note": "As C12 for the 64-bit variants, for the exact length range of the code's counters."
  },
  {
   "property": "C14",
   "status": "proved",
   "theorems": [
    "SHA1_stream"
   ],
   "note": "Against an independent FIPS 180-4 SHA-1, every splitting."
  },
  {
   "property": "C15",
   "status": "proved",
   "theorems": [
    "MD5_stream"
   ],
   "note": "Against RFC 1321, every message of every length (bit count modulo 2^64), every splitting, no length limit."
  },
  {
   "property": "C16",
   "status": "partial",
   "theorems": [
    "SHA224_short_partial",
    "SHA224_refuted"
   ],
   "note": "REFUTED: messages of 56 bytes and more get a wrong digest because TransformSHA2224 adds only seven of the eight registers; correct for shorter messages (SHA224_short_partial)."
  },
  {
   "property": "C17",
   "status": "proved",
   "theorems": [
    "SHA3_stream"
   ],
   "note": "Any interleaving of updates (each below 2^29 bytes) and finalizes: every digest is the Keccak sponge of FIPS 202 section 4 over everything fed so far, with the rate, capacity and output length of the hash type, and no FIPS 202 suffix bits; finalize leaves the running state alone."
  },
  {
   "property": "C18",
   "status": "partial",
   "theorems": [
    "SHA3_fips202_refuted",
    "SHA3_stream"
   ],
   "note": "REFUTED: for SHA3-224/256/384/512 the digest of the empty message is not the FIPS 202 one, because the code pads without the 01 suffix (it computes the original Keccak). What is proved instead is C17."
  },
  {
   "property": "C19",
   "status": "partial",
   "theorems": [
    "UpdateSHA3_terminates_iff",
    "UpdateSHA3_terminates_refuted"
   ],
   "note": "REFUTED: with bytes queued, an update whose length modulo 2^29 does not fill the block loops forever (the bit count is truncated to 32 bits). The exact termination condition is proved."
  },
  {
   "property": "C20",
   "status": "proved",
   "theorems": [
    "CRC64_stream",
    "crc64_unique",
    "GetStringInfoCRC_is_crc64"
   ],
   "note": ""
  },
  {
   "property": "C21",
   "status": "proved",
   "theorems": [
    "CRC64_burst",
    "CRC64_burst_bytes",
    "CRC64_burst_sharp"
   ],
   "note": ""
  },
  {
   "property": "C22",
   "status": "partial",
   "theorems": [
    "HMAC_stream",
    "ConstructHMAC_ok",
    "ResetHMAC_ok",
    "is_hmac_unique",
    "HMAC_SHA224_refuted",
    "HMAC_SHA3_block_refuted"
   ],
   "note": "Proved for every hash type but SHA-224: after any history of Initialize/Reset/Update/Finalize/Construct calls from AcquireHMACInfo, any key (shorter, equal, longer than the block) and any splitting give the RFC 2104 code over the standard's hash; ResetHMAC restarts with the same key. Bounds: key and each update below 2^29 bytes (the SHA-3 loop of C19), text below 2^60. REFUTED for SHA-224: even the empty key and message give a wrong code, because the inner and outer hash span two blocks (C16). Also REFUTED: for SHA-3 the block length is 64 instead of the rate that FIPS 202 section 7 prescribes."
  },
  {
   "property": "C23",
   "status": "proved",
   "theorems": [
    "hash_reusable",
    "hash_conforms",
    "is_hash_unique"
   ],
   "note": "hash_reusable: two objects of the same type, any histories (updates of bytes shorter than 2^60), give the same result after InitializeHash and the same calls, finals in the middle included; both may fail to end only through the SHA-3 loop of C19. hash_conforms adds what the digest is."
  },
  {
   "property": "C24",
   "status": "proved",
   "theorems": [
    "random_stream_any_hash",
    "random_stream",
    "acquired_stream"
   ],
   "note": "Any split of the requests takes the next bytes of one stream; its blocks are HMAC(key, nonce+k) as in RFC 2104 for every hash but SHA-224 (whose HMAC is wrong, C22); for SHA-224 random_stream_any_hash still gives the single stream. acquired_stream: for the generators AcquireRandomInfo makes."
  },
  {
   "property": "C25",
   "status": "proved",
   "theorems": [
    "random_stream_any_hash",
    "random_nonces_distinct"
   ],
   "note": "The nonces hashed are the successive values of a big-endian counter, all distinct; the fatal sequence-wrap error is raised exactly when the counter has run out."
  },
  {
   "property": "C26",
   "status": "proved",
   "theorems": [
    "xoshiro_previous",
    "xoshiro_injective",
    "xoshiro_fixed",
    "xoshiro_never_zero",
    "pseudo_random_range"
   ],
   "note": "The range part uses the axioms of Coq's Reals."
  },
  {
   "property": "C27",
   "status": "partial",
   "theorems": [
    "pseudo_random_one_refuted",
    "pseudo_random_one_reached_refuted",
    "random_value_one_refuted",
    "random_value_range",
    "GetRandomValue_stream"
   ],
   "note": "REFUTED: GetPseudoRandomValue is exactly 1.0 for the two largest 53-bit outputs and for no others; GetRandomValue is exactly 1.0 for the 1024 largest keys (the loop excludes only the largest). Both stay within [0,1]. Uses the axioms of Coq's Reals."
  },
  {
   "property": "C28",
   "status": "proved",
   "theorems": [
    "reservoir_round_trip",
    "reservoir_corruption",
    "reservoir_crc_changed",
    "reservoir_accepts_only_records",
    "reservoir_truncation",
    "acquired_savable"
   ],
   "note": "For a generator of any protocol version but 1.0 (see C70); a generator starts with version 1.1."
  },
  {
   "property": "C29",
   "status": "partial",
   "theorems": [
    "saved_state_carries_no_entropy_refuted",
    "first_entropy_unused_refuted"
   ],
   "note": "REFUTED: the HMAC is initialised but never finalized, so the nonce, the reservoir and the saved entropy are zero bytes whatever was gathered, and the first batch of entropy has no influence on any byte of the stream."
  },
  {
   "property": "C30",
   "status": "proved",
   "theorems": [
    "keyring_history",
    "imported_key_exports"
   ],
   "note": "Every history of Acquire/SetId/SetKey/SetNonce/Export/Import through any number of KeyringInfos on one file, from an absent file or any keyring without protocol 1.0 entries; all writes succeed. For entries of protocol 1.0 see C71."
  },
  {
   "property": "C31",
   "status": "proved",
   "theorems": [
    "import_duplicate",
    "ids_unique",
    "keyring_history"
   ],
   "note": "For any keyring followed by anything, and whatever the writes would do."
  },
  {
   "property": "C32",
   "status": "proved",
   "theorems": [
    "crash_keeps_keys",
    "crash_new_file"
   ],
   "note": "The crash stops the writes after any number of bytes; the bytes reach the file in the order they are written."
  },
  {
   "property": "C33",
   "status": "partial",
   "theorems": [
    "torn_import_loses_later_keys_refuted"
   ],
   "note": "REFUTED: after a crash that left one or two bytes of a record, every later import reports success and its key cannot be exported."
  },
  {
   "property": "C34",
   "status": "partial",
   "theorems": [
    "exported_record_present_partial",
    "truncated_nonce_exported_refuted"
   ],
   "note": "REFUTED for the nonce: a record whose nonce is cut off is exported with zeros in its place. Proved for every file: header, earlier entries, id and key are completely present."
  },
  {
   "property": "C35",
   "status": "partial",
   "theorems": [
    "generate_then_authenticate_partial",
    "authenticate_only_if_digest",
    "generate_succeeds",
    "generate_after_1_0_unreadable_refuted"
   ],
   "note": "Proved for every pass phrase, key, nonce, random stream, every keyring whose last record is not of protocol 1.0 and whatever is appended later; any pass phrase is accepted only on an HMAC match. REFUTED when the last record is of protocol 1.0: the new record is written as 1.0 and cannot be read. HMAC-SHA224 is excluded (C22)."
  },
  {
   "property": "C36",
   "status": "partial",
   "theorems": [
    "import_result_ignores_writes_refuted",
    "import_success_stored_refuted",
    "generate_success_stored_refuted",
    "save_ignores_writes_refuted",
    "save_writes"
   ],
   "note": "REFUTED for all three: when every write fails, the functions still report success and the file is unchanged."
  },
  {
   "property": "C37",
   "status": "partial",
   "theorems": [
    "key_history_partial",
    "session_key_deciphered",
    "session_key_replaced",
    "session_key_not_returned_refuted",
    "session_id_overwritten_refuted"
   ],
   "note": "Proved for every history of SetKeyInfo, GenerateSessionKey and GetKeyInfo that does not use the id of the session key itself. REFUTED for that id: its key is stored in the clear but deciphered when read, and setting it makes every key set before unreadable."
  },
  {
   "property": "C38",
   "status": "proved",
   "theorems": [
    "splay_tree_is_a_finite_map",
    "splay_bindings_unique"
   ],
   "note": "Every answer (add, get, remove, delete, by-value removal, count, reset) over any history below 2^1024 calls; the comparison is any total preorder, or pointer order."
  },
  {
   "property": "C39",
   "status": "proved",
   "theorems": [
    "splay_iteration_sorted_complete"
   ],
   "note": "Ascending, each once, then NULL, with lookups interleaved. Removing the key the iterator will return next is outside the statement."
  },
  {
   "property": "C40",
   "status": "proved",
   "theorems": [
    "splay_balance_depth",
    "splay_never_fatal",
    "splay_depth_limit"
   ],
   "note": "No history reaches the fatal error: after BalanceSplayTree the height is at most log2(n)+1. Failure to allocate the node array in BalanceSplayTree (fatal in the code) is not modelled."
  },
  {
   "property": "C41",
   "status": "proved",
   "theorems": [
    "hashmap_finite_map",
    "hashmap_lookups",
    "pointer_methods",
    "string_methods",
    "stringinfo_methods",
    "hashmap_put_any_memory",
    "hashmap_failed_put_refuted"
   ],
   "note": "For any hash and comparison (an equivalence under which equal keys hash equally), any capacity above zero and any history with memory to be had. The return value of put is true up to 4194299 calls; gets and removals agree without that bound. hashmap_failed_put_refuted records the side effects of a put that reports failure (value stored, or old value lost) when memory runs out; the map after such a put is hashmap_put_any_memory."
  },
  {
   "property": "C42",
   "status": "proved",
   "theorems": [
    "hashmap_iteration",
    "hashmap_iteration_lookup_refuted"
   ],
   "note": "The interleaved lookups may be any subset of the calls. hashmap_iteration_lookup_refuted shows that lookups of other keys, which the claim excludes, make the iterator skip or repeat."
  },
  {
   "property": "C43",
   "status": "partial",
   "theorems": [
    "hashmap_count_partial",
    "hashmap_count_refuted",
    "hashmap_count_wraps_refuted"
   ],
   "note": "REFUTED: PutEntryInHashmap counts an overwritten key again (hashmap.c 1563), and a put that fails to grow is stored but not counted. Proved for all histories that never overwrite a key."
  },
  {
   "property": "C44",
   "status": "proved",
   "theorems": [
    "hash_pointer_injective",
    "pointer_keys_distinct"
   ],
   "note": "64-bit size_t."
  },
  {
   "property": "C45",
   "status": "partial",
   "theorems": [
    "linked_list_sequence_partial",
    "list_step",
    "linked_list_insert_refuted",
    "linked_list_insert_lost"
   ],
   "note": "REFUTED: InsertValueInLinkedList strictly inside the list (hashmap.c 1030-1049) drops the new element yet counts it, and RemoveElementFromLinkedList of the last counted element then follows NULL. Proved: for every other history (insertions at the two ends, append, remove by index/value/last, get, iterate, clear, array, count) on an explicit heap with any allocator, the answers are those of the sequence and no NULL or freed pointer is followed."
  },
  {
   "property": "C46",
   "status": "proved",
   "theorems": [
    "sorted_insert_correct",
    "sorted_replace_iterator_refuted",
    "sorted_replace_leak_refuted"
   ],
   "note": "Proved on the heap model for every total preorder. The list is well formed after the iterator is reset; the two _refuted theorems record side effects of replacement outside the claim: an iterator on the replaced element dangles, a replaced head is leaked."
  },
  {
   "property": "C47",
   "status": "proved",
   "theorems": [
    "hex_round_trip",
    "hex_case"
   ],
   "note": "For every StringInfo whose contents are bytes; the encoding is the RFC 4648 base-16 one, decoding is insensitive to letter case on every text."
  },
  {
   "property": "C48",
   "status": "proved",
   "theorems": [
    "base64_encode",
    "base64_decode",
    "base64_round_trip"
   ],
   "note": "Every blob and every text. The decoder accepts exactly the RFC 4648 encodings with white space anywhere. Not modelled: the pointer blob+blob_length-2 is computed one byte before the blob when the blob has one byte; 4*blob_length does not wrap for blobs that fit in memory."
  },
  {
   "property": "C49",
   "status": "proved",
   "theorems": [
    "stringinfo_runs_refine",
    "stringinfo_clone",
    "stringinfo_compare",
    "lex_eq",
    "lex_lt",
    "stringinfo_string_round_trip"
   ],
   "note": "Refinement of every call sequence to byte strings, with bounds-checked memory; allocation failure not modelled."
  },
  {
   "property": "C50",
   "status": "partial",
   "theorems": [
    "concatenate_ignores_source_refuted",
    "concatenate_appends_slack_refuted",
    "concatenate_not_append_refuted",
    "concatenate_overflow_refuted"
   ],
   "note": "REFUTED: the claim is false of the code; the theorems refute it."
  },
  {
   "property": "C51",
   "status": "partial",
   "theorems": [
    "copy_wizard_string_partial",
    "copy_wizard_string_zero",
    "concatenate_wizard_string",
    "concatenate_wizard_string_full",
    "copy_return_refuted"
   ],
   "note": "Bounds, termination and the longest fitting prefix are proved for both functions, and the return value for ConcatenateWizardString. REFUTED: CopyWizardString returns length-2, not the source length, whenever the source is cut or fits exactly, and (size_t)-1 for a length of zero. The branches that call strlcat are not modelled."
  },
  {
   "property": "C52",
   "status": "partial",
   "theorems": [
    "locale_compare_order_partial",
    "locale_compare_high_bytes_refuted"
   ],
   "note": "Order laws for all strings, case folding for ASCII strings. REFUTED for bytes above 127: AsciiMap folds 0xC1-0xDA except 0xC5 as well. The strcasecmp branch is the C library."
  },
  {
   "property": "C53",
   "status": "proved",
   "theorems": [
    "glob_wildcards",
    "glob_matches"
   ],
   "note": "Literals, ? and *, case sensitive or not, for every pattern and expression."
  },
  {
   "property": "C54",
   "status": "partial",
   "theorems": [
    "strip_string_partial",
    "substitute_string_partial",
    "strip_string_refuted",
    "substitute_empty_refuted"
   ],
   "note": "REFUTED: SubstituteString never ends for an empty search string, StripString leaves a quote of a pair of quotes with nothing between and white space after a lone quote. Proved for every other search string and every other text. The allocation in SubstituteString is not modelled."
  },
  {
   "property": "C55",
   "status": "proved",
   "theorems": [
    "ReadFileChunk_exact",
    "ReadFileChunk_complete",
    "ReadFileChunk_end_of_file",
    "WriteFileChunk_exact",
    "WriteFileChunk_complete",
    "integers_round_trip",
    "integers_little_endian",
    "integers_short_file",
    "chunk_summary"
   ],
   "note": ""
  },
  {
   "property": "C56",
   "status": "partial",
   "theorems": [
    "lock_exclusion_partial",
    "lock_timeout_refuted",
    "lock_race_refuted",
    "lock_stale_refuted"
   ],
   "note": "REFUTED: a caller that gives up after ten tries, or that loses the race between the two opens, removes the holder's lock file in DestroyFileInfo, so a third thread obtains the lock too; a stale lock makes the call that removes it fail. Proved for any number of threads, crashes and faults: exclusion holds in every execution in which no failing call and no stale-lock removal removes a lock file that is in place."
  },
  {
   "property": "C57",
   "status": "partial",
   "theorems": [
    "resource_accounting_partial",
    "resource_below_limit_partial",
    "resource_restore",
    "resource_over_return",
    "resource_limit_refuted",
    "resource_big_limit_refuted",
    "resource_area_refuted"
   ],
   "note": "REFUTED in general: a request of 2^63 bytes or more wraps the signed counter and is granted under a finite limit; limits of 2^63 or more refuse everything; a refused area request is recorded. Proved for every history in which what is held plus the request stays below 2^63 and limits are below 2^63 or infinite: counters equal granted minus returned, requests are granted exactly when they stay below the limit in force, a fixed finite limit is never reached, acquire-then-relinquish restores."
  },
  {
   "property": "C58",
   "status": "partial",
   "theorems": [
    "content_round_trip_partial",
    "content_padding_refuted",
    "content_padding_hmac_refuted",
    "content_exact_refuted"
   ],
   "note": "REFUTED in general: the padding of the last chunk is kept (or the HMAC check fails) when the padded length equals the chunk size or the input is stdin/zip, and an exact multiple of the chunk size without HMAC is not deciphered. Proved for CFB, for chunk sizes that are no multiple of the block size, and for the other lengths (recoverable)."
  },
  {
   "property": "C59",
   "status": "partial",
   "theorems": [
    "content_authentic_partial",
    "content_truncation_refuted"
   ],
   "note": "REFUTED for truncation at a chunk boundary, which is not detected. Proved: every chunk written stands in the file after its own HMAC."
  },
  {
   "property": "C60",
   "status": "partial",
   "theorems": [
    "option_round_trip_partial",
    "option_list",
    "option_command_refuted",
    "option_negation_refuted",
    "option_empty_refuted"
   ],
   "note": "REFUTED for the command table: the sign that is part of every command name is skipped, so none is ever recognized. Also a negated name is added instead of removed, and an empty option reads uninitialized memory. Proved for the thirteen other tables: every type, every letter case; lists of names give the union."
  },
  {
   "property": "C61",
   "status": "proved",
   "theorems": [
    "acquire_quantum_memory",
    "resize_quantum_memory",
    "acquire_aligned_memory",
    "over_allocate_memory"
   ],
   "note": "Both directions: the request is the exact product and it is refused only when the product does not fit (or is empty). Also the aligned extent and the string over-allocation."
  },
  {
   "property": "C62",
   "status": "proved",
   "theorems": [
    "twofish_encipher_is_twofish"
   ],
   "note": ""
  },
  {
   "property": "C63",
   "status": "proved",
   "theorems": [
    "serpent_encipher_is_serpent"
   ],
   "note": ""
  },
  {
   "property": "C64",
   "status": "partial",
   "theorems": [
    "file_to_blob_pipe_partial",
    "file_to_blob_pipe_refuted",
    "file_to_blob_seek"
   ],
   "note": "REFUTED: the blob is grown before the index advances, so two successive reads of together more than 8193 bytes write past its end. Proved: content and termination byte when two successive reads never exceed the quantum plus one; the seekable branch is correct for every sequence of answers."
  },
  {
   "property": "C65",
   "status": "partial",
   "theorems": [
    "SHA256_length",
    "SHA256_length_refuted"
   ],
   "note": "REFUTED: a single update of 2^32 bytes or more loses the high bits of the count; exact below that (SHA256_length). SHA-512 is covered by SHA512_stream."
  },
  {
   "property": "C66",
   "status": "proved",
   "theorems": [
    "splay_free_once"
   ],
   "note": ""
  },
  {
   "property": "C67",
   "status": "proved",
   "theorems": [
    "splay_clone"
   ],
   "note": "Node allocation assumed to succeed; AddValueToSplayTree's failure is ignored by the code."
  },
  {
   "property": "C68",
   "status": "partial",
   "theorems": [
    "ReadFileChunk_end_of_file_after_interruption_refuted",
    "ReadFileChunk_end_of_file",
    "ReadFileChunk_complete",
    "WriteFileChunk_complete",
    "blob_chunk_stale_refuted"
   ],
   "note": "REFUTED: errno is not reset, so a read that returns 0 at end of file after an interrupted call is repeated for ever. Without an interruption it returns. ReadBlobChunk (blob.c) has the same defect."
  },
  {
   "property": "C69",
   "status": "partial",
   "theorems": [
    "random_device_dropped_refuted",
    "getentropy_used"
   ],
   "note": "REFUTED for /dev/urandom: ConcatenateStringInfo copies its source behind the new length, so the last chunk, which is the random device's, does not influence the entropy. With getentropy() the 64 bytes are the entropy."
  },
  {
   "property": "C70",
   "status": "partial",
   "theorems": [
    "reservoir_1_0_saved_unreadable_refuted",
    "reservoir_round_trip"
   ],
   "note": "REFUTED for version 1.0: the version read is taken over but the timestamp is written all the same; every other version can be read again."
  },
  {
   "property": "C71",
   "status": "partial",
   "theorems": [
    "keyring_1_0_import_unreadable_refuted"
   ],
   "note": "REFUTED: the record is written with a 64-bit timestamp that protocol 1.0 does not have, and cannot be read."
  },
  {
   "property": "C72",
   "status": "partial",
   "theorems": [
    "generate_timestamp_refuted"
   ],
   "note": "REFUTED: the record carries the timestamp of the keyring's last record."
  },
  {
   "property": "C73",
   "status": "partial",
   "theorems": [
    "key_streams_reused_refuted"
   ],
   "note": "REFUTED: every SetKeyInfo restarts counter mode from the same nonce."
  },
  {
   "property": "C74",
   "status": "partial",
   "theorems": [
    "glob_matches",
    "glob_one_word",
    "glob_alternatives_refuted"
   ],
   "note": "Classes, ranges and escapes proved together with the wildcards, in the order of signed chars. REFUTED for alternatives: {wizard} matches wiz, and {a,b}c does not match ac. glob_one_word tells for all words and texts what an alternative on its own matches: the beginnings of the word, with their case."
  },
  {
   "property": "C75",
   "status": "partial",
   "theorems": [
    "glob_matches",
    "glob_overread_refuted",
    "glob_brace_overread_refuted"
   ],
   "note": "Proved for patterns of literals, escapes, ?, * and closed classes. REFUTED: an unfinished range \"[a-\" and an unfinished escape \"{\\\" are read past the terminating zero."
  },
  {
   "property": "C76",
   "status": "partial",
   "theorems": [
    "virtual_memory_balance_partial",
    "virtual_memory_abort_refuted",
    "virtual_memory_steals_refuted"
   ],
   "note": "REFUTED: a refused memory, map or disk request is relinquished all the same, which aborts the process under the built-in limits (2 GiB request) or takes other holders' charge off the counter. Proved when there are no limits: exact charge and exact balance on every fall-back path."
  },
  {
   "property": "C77",
   "status": "proved",
   "theorems": [
    "signature_stream"
   ],
   "note": "Every sequence of updates of total length below 2^61 bytes, on 64-bit words truncated as in signature.c, against the FIPS 180-4 specification."
  },
  {
   "property": "C78",
   "status": "proved",
   "theorems": [
    "blob_reads"
   ],
   "note": "File and mapped streams, all call sequences, errno not EINTR (C68 covers that case). Pipes, gzip and bzip2 streams are not modelled; reads do not fail."
  },
  {
   "property": "C79",
   "status": "partial",
   "theorems": [
    "memory_writes",
    "mapped_write_refuted"
   ],
   "note": "Proved for blobs in heap memory. REFUTED for a blob opened for reading whose file was mapped: WriteBlob stores into the read-only mapping, WriteBlobString removes the mapping although later reads use it."
  },
  {
   "property": "C80",
   "status": "partial",
   "theorems": [
    "extent_refuted",
    "extent_grow_partial",
    "extent_shrink_refuted"
   ],
   "note": "REFUTED: fseek's result (0) is taken for the position: a byte of a file longer than the extent is overwritten with zero and the position goes to the beginning; a memory blob shrunk below its length is read past its buffer. Proved: growing a file keeps its bytes."
  },
  {
   "property": "C81",
   "status": "partial",
   "theorems": [
    "close_partial",
    "close_refuted"
   ],
   "note": "REFUTED: the status of fflush is replaced by that of fclose, so a failed last flush (whose bytes stdio dropped) is reported as success. Proved when the flush succeeds and for exempt streams."
  },
  {
   "property": "C82",
   "status": "proved",
   "theorems": [
    "header_round_trip"
   ],
   "note": "The XML parser is a parameter (parse): its result on the RDF text is the hypothesis. hex is any function to hexadecimal text; with the library's SHA-256 this is C12/C47."
  },
  {
   "property": "C83",
   "status": "partial",
   "theorems": [
    "scan_returns_partial",
    "scan_returns_refuted",
    "nodes_returns_refuted"
   ],
   "note": "REFUTED: a first byte that is not visible ASCII keeps both readers in the loop for ever, and so does an element of another name space (scan_returns_refuted, nodes_returns_refuted). Proved for text of visible characters and white space that begins with a visible character."
  },
  {
   "property": "C84",
   "status": "partial",
   "theorems": [
    "scan_in_bounds_partial",
    "scan_in_bounds_refuted"
   ],
   "note": "REFUTED: a key as long as the buffer has its NUL written one byte behind it. Proved for every file whose runs of key characters are shorter than the buffer, with no restriction on values."
  },
  {
   "property": "C85",
   "status": "partial",
   "theorems": [
    "header_damage_partial",
    "header_authentic_refuted"
   ],
   "note": "REFUTED: the digest in the header is not keyed, so every well-formed replacement is accepted. Proved: attributes whose digest differs from the announced one are rejected."
  },
  {
   "property": "C86",
   "status": "partial",
   "theorems": [
    "digest_verified_partial",
    "digest_verified_refuted",
    "digest_missing_refuted",
    "digest_status_refuted"
   ],
   "note": "REFUTED for names with white space or characters that XML escapes, for files that are gone and for the status, which is always WizardFalse. Proved for names without white space, quotes, <, > and ? that their canonical form leaves alone."
  },
  {
   "property": "C87",
   "status": "proved",
   "theorems": [
    "text_round_trip"
   ],
   "note": "The UTF-8 form is stated with an RFC 3629 decoder of its own (XmlSpec)."
  },
  {
   "property": "C88",
   "status": "partial",
   "theorems": [
    "char_reference_partial",
    "char_reference_refuted"
   ],
   "note": "REFUTED: numbers that name no character are cut to 32 bits and accepted (&#4294967361; is A), so are negative ones, and &#-256; ends the text. Proved for 1..0x10FFFF (surrogates included, which XML does not allow)."
  },
  {
   "property": "C89",
   "status": "proved",
   "theorems": [
    "entity_expansion_ends"
   ],
   "note": "The tables are those the code can build from accepted declarations; the parameter-entity pass over declared values (state %) is not modelled."
  },
  {
   "property": "C90",
   "status": "partial",
   "theorems": [
    "entity_declaration_partial",
    "entity_declaration_refuted",
    "entity_reference_partial",
    "entity_references_partial",
    "entity_empty_refuted"
   ],
   "note": "REFUTED: every value with an ampersand is rejected as circular (inverted strncmp), and a reference to an empty entity loses the end of the text. Proved: values without ampersand are accepted, and any number of references to non-empty ones are substituted exactly."
  },
  {
   "property": "C91",
   "status": "partial",
   "theorems": [
    "tree_round_trip_partial",
    "tree_round_trip_refuted",
    "tree_utf8_refuted"
   ],
   "note": "REFUTED: an element without text is closed before its children, and non-ASCII text is encoded again with each round. Proved for ASCII trees in which only elements with text have children."
  },
  {
   "property": "C92",
   "status": "proved",
   "theorems": [
    "parser_returns"
   ],
   "note": "The model of this claim returns the result Doctype at a DOCTYPE declaration; C260 is about what follows it."
  },
  {
   "property": "C93",
   "status": "partial",
   "theorems": [
    "tree_printed_partial",
    "attribute_without_value_refuted",
    "child_printed_refuted"
   ],
   "note": "REFUTED: <a b> gives an attribute whose NULL value the writer dereferences; writing an element at offset WizardPathExtent or more of its parent stores a NUL outside its copy. Proved for whole trees whose attributes have values."
  },
  {
   "property": "C94",
   "status": "proved",
   "theorems": [
    "children_parsed"
   ],
   "note": "On an explicit heap with NULL checks."
  },
  {
   "property": "C95",
   "status": "partial",
   "theorems": [
    "children_found_partial",
    "pruned_first_refuted",
    "pruned_endless_refuted",
    "sibling_twice_refuted"
   ],
   "note": "REFUTED: pruning the first of several children with one tag can make the others unfindable; a child inserted before a first child with its tag is listed twice, and pruning it leaves that child its own sibling, so that looking up another tag never ends. Proved for all histories without these two kinds of call."
  },
  {
   "property": "C96",
   "status": "partial",
   "theorems": [
    "settings_round_trip_partial",
    "chunksize_refuted"
   ],
   "note": "REFUTED for chunk sizes of 2^32 and more, which are cut to 32 bits when read. Proved for all smaller ones, from text to settings with the XML reader of the library (no parser oracle); times are compared as texts."
  },
  {
   "property": "C97",
   "status": "partial",
   "theorems": [
    "settings_round_trip_partial",
    "filename_quote_refuted"
   ],
   "note": "REFUTED: a path with a double quote before a slash is written unescaped into an attribute; the header of the enciphered file is then always rejected. Proved for every path without double quotes."
  },
  {
   "property": "C98",
   "status": "proved",
   "theorems": [
    "line_ends",
    "line_ends_read"
   ],
   "note": "A text that ends with CR is excluded: there the loop leaves the text (finding in DESIGN.md)."
  },
  {
   "property": "C99",
   "status": "proved",
   "theorems": [
    "allocator_blocks",
    "allocator_fresh"
   ],
   "note": "Legal calls: sizes below 2^64-2097248, fewer than 1024 segments, segments aligned and disjoint as the system provides them; Resize of a live block needs a segment and a size that fits (see C103)."
  },
  {
   "property": "C100",
   "status": "proved",
   "theorems": [
    "allocator_progress",
    "most_sizes_roomy"
   ],
   "note": ""
  },
  {
   "property": "C101",
   "status": "proved",
   "theorems": [
    "allocator_layout",
    "allocator_live_laid",
    "allocator_no_leak"
   ],
   "note": ""
  },
  {
   "property": "C102",
   "status": "proved",
   "theorems": [
    "allocator_best_fit"
   ],
   "note": ""
  },
  {
   "property": "C103",
   "status": "partial",
   "theorems": [
    "huge_request_refuted",
    "huge_request_aborts_refuted",
    "request_after_growth_refuted",
    "allocator_best_fit"
   ],
   "note": "REFUTED: a request for 2^64-1 bytes gets a block of 32, one for 2^64-55 aborts, one for 2097056 fails although a segment was obtained and in ResizeWizardMemory aborts. Proved for all other sizes: the block has exactly the rounded size."
  },
  {
   "property": "C104",
   "status": "partial",
   "theorems": [
    "pool_reset_refuted",
    "allocator_best_fit"
   ],
   "note": "REFUTED: once 1024 segments were taken the pool is set up anew and all free blocks are lost. Proved below that: the system is asked only if no free block fits."
  },
  {
   "property": "C105",
   "status": "partial",
   "theorems": [
    "format_denotes",
    "format_odd_zone_refuted"
   ],
   "note": "Proved for offsets of whole hours. REFUTED for all others: the minutes of the offset are printed as 00, the text denotes another instant."
  },
  {
   "property": "C106",
   "status": "partial",
   "theorems": [
    "parse_format",
    "parse_west",
    "parse_east",
    "parse_format_refuted",
    "parse_summer_refuted"
   ],
   "note": "Proved for zones west of Greenwich with a constant offset of whole hours. REFUTED elsewhere: at Greenwich and east of it reading stops at the plus sign, the seconds are lost and the offset is subtracted twice; in summer time the result is one or two hours off. parse_west and parse_east give the result in all cases of whole hours."
  },
  {
   "property": "C107",
   "status": "proved",
   "theorems": [
    "path_components_split",
    "path_components_unique"
   ],
   "note": ""
  },
  {
   "property": "C108",
   "status": "partial",
   "theorems": [
    "head_tail",
    "tail_of_name",
    "chop_components",
    "head_of_root_refuted"
   ],
   "note": "Proved for all paths but those right below the root. REFUTED there: the head of \"/x\" is empty, the same as the head of \"x\"."
  },
  {
   "property": "C109",
   "status": "partial",
   "theorems": [
    "root_extension",
    "base_of_file",
    "no_extension",
    "append_extension",
    "append_new_extension",
    "hidden_file_refuted"
   ],
   "note": "Proved for file names with something in front of the last dot. REFUTED for hidden files: the name is taken for an extension, AppendFileExtension replaces it, base and extension overlap."
  },
  {
   "property": "C110",
   "status": "partial",
   "theorems": [
    "subnode_path",
    "filesystem_path",
    "only_subnode_refuted",
    "long_filesystem_refuted"
   ],
   "note": "Proved for paths that fit twice. REFUTED otherwise: RootPath of a subnode alone reads in front of the buffer; moving the rest behind a file system reads behind it when the path is long."
  },
  {
   "property": "C111",
   "status": "proved",
   "theorems": [
    "argv_of_line",
    "every_text_is_a_line",
    "argv_quoted"
   ],
   "note": "The lines are described by the inductive relation Line, which every text satisfies."
  },
  {
   "property": "C112",
   "status": "proved",
   "theorems": [
    "token_quoted",
    "token_word",
    "token_url"
   ],
   "note": "strtod is an argument; for words the theorem asks that no number starts there."
  },
  {
   "property": "C113",
   "status": "partial",
   "theorems": [
    "token_fits",
    "token_progress",
    "token_safe",
    "token_open_paren_refuted",
    "token_bare_url_refuted"
   ],
   "note": "Size and progress proved for all texts, safety for all texts without an opening parenthesis. REFUTED otherwise: a word with an unclosed parenthesis makes the scan run past the NUL, the token url( alone is written in front of its first byte."
  },
  {
   "property": "C114",
   "status": "partial",
   "theorems": [
    "mime_found",
    "mime_mask_refuted",
    "mime_last_bytes_refuted",
    "mime_pattern_only_refuted",
    "mime_no_data_refuted"
   ],
   "note": "The choice is proved for all caches; describes says what the code accepts. REFUTED as descriptions of a file: a mask is applied to the wanted value and not to the data, numbers of one and two bytes need four, an entry with only a pattern describes every unnamed file, without data the first entry is returned. The entry found is not moved to the front: the list functions get NULL."
  },
  {
   "property": "C115",
   "status": "partial",
   "theorems": [
    "magic_read",
    "magic_round_trip",
    "magic_fits",
    "magic_digit_refuted",
    "magic_alarm_refuted",
    "magic_backslash_refuted"
   ],
   "note": "Proved for octal escapes not followed by a digit. REFUTED: octal escapes take all digits that follow, \\a is the letter a, a backslash at the end leads beyond the text."
  },
  {
   "property": "C116",
   "status": "partial",
   "theorems": [
    "locale_loaded",
    "locale_slash_refuted",
    "locale_second_refuted",
    "locale_top_refuted",
    "locale_comment_refuted"
   ],
   "note": "Proved for files with one locale element whose messages are in groups and have no slash. REFUTED without these: a slash in a text, a message outside of the groups and a second locale element change the tags of what follows; a comment with a word before an unclosed parenthesis is read past the end of the file."
  },
  {
   "property": "C117",
   "status": "proved",
   "theorems": [
    "locale_message",
    "locale_last"
   ],
   "note": "For the files of C116."
  },
  {
   "property": "C118",
   "status": "partial",
   "theorems": [
    "throw_list",
    "throw_kept",
    "inherit_list",
    "throw_case_refuted"
   ],
   "note": "Proved with alike as equality up to the case of letters. REFUTED with equality: exceptions about files whose names differ in case are one."
  },
  {
   "property": "C119",
   "status": "partial",
   "theorems": [
    "severity_last",
    "severity_greatest_refuted"
   ],
   "note": "REFUTED as a summary of the list: a fatal error is hidden by a warning that follows."
  },
  {
   "property": "C120",
   "status": "partial",
   "theorems": [
    "catch_calls_partial",
    "catch_fatal",
    "catch_lost_refuted",
    "catch_exit_refuted"
   ],
   "note": "Proved if none is fatal. REFUTED otherwise: the fatal handler is called by the severity of the last exception and not by its own; a fatal exception that is not the last reaches no handler, and with the default handler a warning before it ends the process in its place."
  },
  {
   "property": "C121",
   "status": "partial",
   "theorems": [
    "log_event_before",
    "log_event_refuted",
    "tag_distinct",
    "tag_missing_refuted"
   ],
   "note": "Distinct tags are proved. REFUTED: the event is chosen by the severity of the exception before, so the first error is logged as a warning; the hashmap and log errors have no tag."
  },
  {
   "property": "C122",
   "status": "partial",
   "theorems": [
    "timer_shows",
    "timer_stopped",
    "timer_reset_refuted",
    "timer_reset_continue_refuted",
    "timer_restart_refuted"
   ],
   "note": "Proved for histories without ResetTimer. REFUTED: ResetTimer leaves the time, continuing after it adds the clock reading of the start, and a start with reset does not restart a watch that runs."
  },
  {
   "property": "C123",
   "status": "partial",
   "theorems": [
    "phrase_read",
    "phrase_modes",
    "phrase_fits",
    "passphrase_agreed",
    "passphrase_twice",
    "phrase_failure_refuted",
    "passphrase_failure_refuted",
    "passphrase_end_refuted",
    "passphrase_long_refuted"
   ],
   "note": "REFUTED: a read error is hidden by the write that follows, so a terminal that fails or ends gives the empty pass-phrase; lines that agree in the first 4095 bytes are the same."
  },
  {
   "property": "C124",
   "status": "proved",
   "theorems": [
    "entropy_round_trip",
    "restore_fits",
    "restore_small"
   ],
   "note": "The libraries are arguments with their promises as hypotheses."
  },
  {
   "property": "C125",
   "status": "partial",
   "theorems": [
    "restore_small",
    "zip_long_refuted",
    "lzma_small_refuted",
    "lzma_cut_refuted"
   ],
   "note": "Small destinations are errors for zip and bzip2. REFUTED: a message of 4 GiB and k bytes is coded as its first k bytes, lzma cuts the text to the destination and accepts streams that were cut."
  },
  {
   "property": "C126",
   "status": "proved",
   "theorems": [
    "event_text",
    "filename_text",
    "event_safe",
    "event_bound_needed"
   ],
   "note": "The values of the letters are an argument; event_bound_needed shows that the bound on them is needed."
  },
  {
   "property": "C127",
   "status": "partial",
   "theorems": [
    "time_rounded",
    "time_carry_refuted"
   ],
   "note": "Proved outside of the last half millisecond of a second. REFUTED there: 1000 thousandths are printed and the second is not carried."
  },
  {
   "property": "C128",
   "status": "partial",
   "theorems": [
    "events_written",
    "records_injective",
    "records_injection_refuted",
    "size_refuted",
    "unlimited_refuted"
   ],
   "note": "That every event is appended and no byte lost is proved for limits below 2^43, reading back for events without an opening angle bracket. REFUTED: an event can hold the end of a record and the start of another; files are appended to again, so their sizes have no bound; the limit unlimited overflows to a negative number and the first event is written to a null file."
  },
  {
   "property": "C129",
   "status": "partial",
   "theorems": [
    "handlers_parsed",
    "handlers_comma_refuted",
    "handlers_unknown_refuted",
    "handlers_prefix_refuted"
   ],
   "note": "Lists of known names are proved. REFUTED: a comma at the end or one unknown name removes all handlers, and words that only begin with a name are taken for it."
  },
  {
   "property": "C130",
   "status": "partial",
   "theorems": [
    "unique_name",
    "unique_place_refuted",
    "portable_spread"
   ],
   "note": "Proved if the argument is a directory with room for the name. REFUTED otherwise: the file is made in the directory where the program runs."
  },
  {
   "property": "C131",
   "status": "partial",
   "theorems": [
    "unique_new",
    "unique_twin_refuted",
    "exhausted_refuted"
   ],
   "note": "Proved if no registered name differs from the new one only in case. REFUTED otherwise: that file is removed; and with too many files the new file stays, and what the argument names is removed in its place."
  },
  {
   "property": "C132",
   "status": "partial",
   "theorems": [
    "relinquish_removes",
    "relinquish_trash_refuted",
    "relinquish_twin_refuted"
   ],
   "note": "That the file is removed and no other changes is proved. REFUTED: it is removed also if it is not to be trashed, the result of trashing is failure, and a name that differs in case removes another file."
  },
  {
   "property": "C133",
   "status": "partial",
   "theorems": [
    "nothing_left",
    "terminus_removes",
    "history_apart",
    "files_counted_refuted",
    "exhausted_refuted"
   ],
   "note": "Proved without a limit. REFUTED: the file resource is never given back, so relinquished files count for ever; files made when it is exhausted stay."
  },
  {
   "property": "C134",
   "status": "partial",
   "theorems": [
    "utf16_read",
    "utf16_in_block",
    "utf16_unmarked",
    "utf16_overrun_refuted",
    "utf16_ascii_refuted",
    "utf16_unpaired_refuted"
   ],
   "note": "The loop is proved right and inside the block. REFUTED: the zero at the end is written behind the block, a text starting with an ASCII character is not read at all since its length is that of a C string, and a surrogate takes any unit for its second half."
  },
  {
   "property": "C135",
   "status": "partial",
   "theorems": [
    "attribute_changed",
    "attribute_first",
    "attribute_none",
    "attribute_found",
    "attribute_set_get",
    "attribute_second_refuted",
    "attribute_remove_refuted"
   ],
   "note": "Changing, adding the first attribute and looking up are proved. REFUTED: adding a second one and removing one use a slot which was never written."
  },
  {
   "property": "C136",
   "status": "partial",
   "theorems": [
    "search_split",
    "options_found",
    "search_long_refuted",
    "xdg_refuted",
    "options_home",
    "config_home_order"
   ],
   "note": "Proved for directories that fit the buffer. REFUTED: a longer name is cut and something else is read in its place, and the file in XDG_CONFIG_HOME is never found as its name is appended twice."
  },
  {
   "property": "C137",
   "status": "partial",
   "theorems": [
    "load_reach",
    "load_own_last",
    "load_ends",
    "include_target",
    "include_absolute",
    "load_self_refuted",
    "include_absolute_refuted",
    "include_root_refuted",
    "load_files"
   ],
   "note": "What is stored, in which order, and that loading ends are proved. REFUTED: a file that includes itself twice is loaded 2^202 - 1 times; absolute names are looked up below the directory of the file, and those next to a file in the root directory where the program runs."
  },
  {
   "property": "C138",
   "status": "partial",
   "theorems": [
    "info_found",
    "info_stable",
    "info_null_refuted",
    "info_first"
   ],
   "note": "Proved if every entry has a name. REFUTED otherwise: an element without a name is stored and looking up reads from the null pointer."
  },
  {
   "property": "C139",
   "status": "partial",
   "theorems": [
    "info_list",
    "name_list_sorted",
    "mime_list_refuted"
   ],
   "note": "Proved for configuration entries and names, for patterns of literals, escapes, wildcards and classes. REFUTED for content types: GetMimeList sorts by addresses."
  },
  {
   "property": "C140",
   "status": "partial",
   "theorems": [
    "once_loaded",
    "once_exclusive",
    "once_progress",
    "once_steps",
    "once_openmp_refuted"
   ],
   "note": "Proved for POSIX threads, and for OpenMP once the semaphore component has been started. REFUTED for OpenMP before: the second thread initialises a mutex the first one holds, two semaphores are acquired and two caches loaded."
  },
  {
   "property": "C141",
   "status": "partial",
   "theorems": [
    "lock_turns",
    "lock_waits",
    "unlock_other",
    "unlock_twice",
    "recursive_lock_refuted",
    "lock_count_refuted"
   ],
   "note": "REFUTED in part: the check for a recursive lock comes after the lock and never fires, so the thread waits for itself; without the debug checks the reference count only grows."
  },
  {
   "property": "C142",
   "status": "partial",
   "theorems": [
    "life_balanced",
    "life_bounded",
    "genesis_again",
    "ending_again",
    "ending_clean",
    "unique_file_running",
    "ending_configure_refuted",
    "unique_file_refuted"
   ],
   "note": "Proved for the log, random numbers, resources and types. REFUTED for the configuration (and messages), which are never ended; and a temporary file before the start, or after the end, fails an assertion."
  },
  {
   "property": "C143",
   "status": "partial",
   "theorems": [
    "signals_caught",
    "signals_others",
    "signals_table",
    "handler_kept_refuted"
   ],
   "note": "Which handler a signal has is proved. REFUTED that handlers stay as they are: SA_SIGINFO, SA_RESTART and the mask are lost and blocked signals are unblocked."
  },
  {
   "property": "C144",
   "status": "partial",
   "theorems": [
    "signal_user",
    "signal_exits",
    "signal_reported_refuted",
    "signal_atexit_refuted",
    "signals_again_refuted"
   ],
   "note": "Handlers of the program and removal of files are proved. REFUTED: the process exits with the number as its status instead of dying of the signal, exit handlers run inside the signal handler (configure never defines HAVE__EXIT), and a second start takes the handler of the library for one of the program."
  },
  {
   "property": "C145",
   "status": "proved",
   "theorems": [
    "doctype_read",
    "entity_first",
    "external_skipped"
   ],
   "note": ""
  },
  {
   "property": "C146",
   "status": "partial",
   "theorems": [
    "doctype_ends",
    "parameter_loop_refuted",
    "parameter_reference",
    "standalone_read",
    "standalone_only"
   ],
   "note": "Proved for texts without a percent sign. REFUTED with parameter entities: one that contains itself is accepted, since only ampersands are looked for, and its next use never ends. References to parameter entities between declarations are never replaced."
  },
  {
   "property": "C147",
   "status": "partial",
   "theorems": [
    "default_attribute_partial",
    "second_list_refuted",
    "quoted_last_refuted",
    "empty_list_refuted"
   ],
   "note": "Proved if each element has one list. REFUTED: a second list of an element is never found (looked up by n, not by its name), and a list whose last attribute has a value, or without attributes, ends all declarations."
  },
  {
   "property": "C148",
   "status": "proved",
   "theorems": [
    "tokens_words"
   ],
   "note": ""
  },
  {
   "property": "C149",
   "status": "proved",
   "theorems": [
    "path_found"
   ],
   "note": ""
  },
  {
   "property": "C150",
   "status": "partial",
   "theorems": [
    "path_number",
    "path_number_partial",
    "path_number_refuted",
    "path_prefix_refuted",
    "path_prefix_found"
   ],
   "note": "What a number does is proved exactly, and it is right if all children have the tag. REFUTED in general: the next child of any tag is counted; and a tag with a prefix is cut if a directory has the name of the prefix."
  },
  {
   "property": "C151",
   "status": "partial",
   "theorems": [
    "path_added",
    "path_added_twice",
    "path_number_added_refuted"
   ],
   "note": "Proved for paths without numbers. REFUTED with numbers above one: the element is made but nothing returned, however often."
  },
  {
   "property": "C152",
   "status": "proved",
   "theorems": [
    "instructions_kept",
    "declaration_no_instruction"
   ],
   "note": ""
  },
  {
   "property": "C153",
   "status": "partial",
   "theorems": [
    "instructions_written",
    "instructions_last_refuted",
    "instruction_thrice_refuted"
   ],
   "note": "REFUTED: what is written is proved exactly: the first instruction of a target twice, each at the place of the next one, and the last one both in front of and behind the root."
  },
  {
   "property": "C154",
   "status": "partial",
   "theorems": [
    "limit_environment",
    "limit_number",
    "genesis_used",
    "limit_unit_refuted",
    "limit_negative_refuted"
   ],
   "note": "Numbers are proved for all five. REFUTED for units: what follows the number is ignored, 2GiB means two bytes; a negative number is read as a huge one."
  },
  {
   "property": "C155",
   "status": "partial",
   "theorems": [
    "limit_files",
    "limit_few_files_refuted",
    "limit_memory_refuted",
    "mebibyte_refuted"
   ],
   "note": "The limit of files is proved from 86 files on. REFUTED: below 64 files the limit is more than there are; the limit of memory is counted in mebibytes and compared with bytes, so that it is less than 2^-18 of the memory and on machines up to 256 GiB not even one mebibyte can be acquired."
  },
  {
   "property": "C156",
   "status": "proved",
   "theorems": [
    "expand_each",
    "expand_safe",
    "expand_literal",
    "expand_quoted"
   ],
   "note": ""
  },
  {
   "property": "C157",
   "status": "proved",
   "theorems": [
    "expand_pattern",
    "expand_unmatched",
    "expand_unreadable",
    "expand_here",
    "expand_home"
   ],
   "note": ""
  },
  {
   "property": "C158",
   "status": "partial",
   "theorems": [
    "expand_parameter_refuted",
    "expand_vanishes_refuted",
    "expand_lost_refuted",
    "expand_class_refuted",
    "expand_root_refuted",
    "expand_dash_refuted"
   ],
   "note": "REFUTED in all parts: the sign of an option is skipped before it is looked up, so parameters are expanded; a pattern that matches directories only vanishes; entries are looked up in the working directory, so a file with the name of a directory there is lost; a class at the end is taken for a subnode; a pattern in / is looked up in the working directory; - reads memory that was not written."
  },
  {
   "property": "C159",
   "status": "proved",
   "theorems": [
    "command_settings",
    "command_chunksize",
    "command_log"
   ],
   "note": ""
  },
  {
   "property": "C160",
   "status": "proved",
   "theorems": [
    "command_unknown",
    "command_missing",
    "command_bad_value",
    "command_names",
    "command_list"
   ],
   "note": ""
  },
  {
   "property": "C161",
   "status": "partial",
   "theorems": [
    "key_length_refuted",
    "empty_key_refuted",
    "empty_key_again_refuted",
    "chunk_zero_refuted",
    "compress_refuted",
    "options_refuted"
   ],
   "note": "REFUTED in all parts: -key-length converts the text of the option instead of its value, so that the length is always 0; with it the key is empty whatever the pass phrase, and a second run with the same keyring and pass phrase never ends; -chunksize 0 writes nothing and succeeds; -(de)compress is not an option since it has no letter behind the sign, and compression is never off; -random is unknown; options with a capital first letter are unknown; + options leave their value behind as a name; -debug None fails."
  },
  {
   "property": "C162",
   "status": "proved",
   "theorems": [
    "listing_complete",
    "listing_secret"
   ],
   "note": ""
  },
  {
   "property": "C163",
   "status": "proved",
   "theorems": [
    "keyring_lists",
    "keyring_default",
    "keyring_framed",
    "keyring_unknown"
   ],
   "note": ""
  },
  {
   "property": "C164",
   "status": "partial",
   "theorems": [
    "listing_damaged_refuted",
    "export_refuted",
    "export_usage_refuted",
    "help_refuted",
    "list_refuted",
    "log_refuted"
   ],
   "note": "REFUTED in all parts: for every damaged file the path of a file_info that was just set to NULL is asked for, which fails an assertion; -export always ends with the arguments freed twice, a failed assertion for the missing id when a keyring is named, or the usage; -help alone lists the default keyring in a file named -help; -list empties a file named as what to list; the parameter of -log is listed as a keyring, and when it is missing the output is taken for it."
  },
  {
   "property": "C165",
   "status": "proved",
   "theorems": [
    "written_read",
    "written_way"
   ],
   "note": ""
  },
  {
   "property": "C166",
   "status": "partial",
   "theorems": [
    "marked_refuted",
    "copy_refuted",
    "command_refuted",
    "special_refuted",
    "digest_command_refuted"
   ],
   "note": "REFUTED in all parts: a name that begins with a bar is run as a command, so that checking a digest file with such a name in it runs the command; - and fd: name descriptors; with compression, which encipher and decipher cannot switch off (C161), a file that begins like a gzip or bzip file is unpacked when read, so that encipher and decipher do not reproduce it, and a text beginning with BZh is not read at all."
  },
  {
   "property": "C167",
   "status": "proved",
   "theorems": [
    "digest_describes",
    "digest_hash",
    "digest_written",
    "digest_unknown",
    "digest_authenticates"
   ],
   "note": ""
  },
  {
   "property": "C168",
   "status": "partial",
   "theorems": [
    "authenticate_usage_refuted",
    "authenticate_exit_refuted",
    "digest_exit_refuted",
    "authenticate_name_refuted",
    "digest_list_refuted",
    "digest_dash_refuted"
   ],
   "note": "REFUTED in all parts: the digest file of -authenticate, as in the usage, is emptied unread; the exit code is 0 when files have changed (the status is WizardFalse, but no exception was thrown) and when no file could be read; a file named by one character and authenticate is read as a digest file; -list writes into the file of the name of the list; - is refused."
  },
  {
   "property": "C169",
   "status": "proved",
   "theorems": [
    "info_shows",
    "report_faithful",
    "info_unknown",
    "info_rejected"
   ],
   "note": "Times are kept as texts, as in C96."
  },
  {
   "property": "C170",
   "status": "partial",
   "theorems": [
    "info_stale_refuted",
    "info_null_refuted",
    "info_exit_refuted",
    "chunk_unit_refuted"
   ],
   "note": "REFUTED in all parts: members a packet does not have are those of the file before; without one, NULL is printed for nonce and id; files that cannot be opened, and packets that are rejected in front of an accepted one, leave the exit code 0; the chunk size is printed with BB at its end."
  },
  {
   "property": "C171",
   "status": "proved",
   "theorems": [
    "log_loaded",
    "log_acquired",
    "log_in_effect",
    "log_filters",
    "log_mask_set"
   ],
   "note": "Files without comments, document types and includes; C137 has the includes. The shipped file is an example."
  },
  {
   "property": "C172",
   "status": "partial",
   "theorems": [
    "log_named_refuted",
    "log_pattern_refuted",
    "log_list_refuted"
   ],
   "note": "REFUTED: whatever the files contain, no log ever has a name (nothing sets it), so that none is found by name, every pattern but the empty one and * is matched against a null pointer, and the list of all names has only empty texts."
  },
  {
   "property": "C173",
   "status": "partial",
   "theorems": [
    "log_mask_refuted",
    "log_unknown_refuted",
    "log_no_events_refuted",
    "log_handlers_refuted",
    "log_second_refuted"
   ],
   "note": "REFUTED in all parts: SetLogEventMask returns the new mask; a misspelt event in a file turns on all events, and none by SetLogEventMask; events=\"\" is undefined behaviour; the listing takes the place of a handler in its table for its bit (stdout is shown as debug), and shows the handlers of the first log of a file only."
  },
  {
   "property": "C174",
   "status": "proved",
   "theorems": [
    "authenticate_recovers",
    "authenticate_accepts_only",
    "authenticate_unknown",
    "authenticate_settings"
   ],
   "note": "Fresh nonces, complete writes (C36), a keyring made by these calls (C35 has older ones); hashes other than SHA-224."
  },
  {
   "property": "C175",
   "status": "partial",
   "theorems": [
    "authenticate_failed_key_refuted",
    "authenticate_stream_refuted",
    "authenticate_length_refuted",
    "authenticate_no_id_refuted"
   ],
   "note": "REFUTED in all parts: after a wrong pass phrase the object has a key of the right length that is not the one asked for, and its former key is gone; all keys one object makes for one pass phrase are stored under the same counter stream, since the nonce is drawn once per object, so that the exclusive or of two records is that of the keys; lengths are cut to whole bytes (below 8 bits the key is empty); an object without id ends the program."
  },
  {
   "property": "C176",
   "status": "proved",
   "theorems": [
    "size_printed",
    "size_read",
    "size_alike",
    "listing_columns"
   ],
   "note": "Doubles are exact rationals here; in C sizes from 2^53 on are rounded first."
  },
  {
   "property": "C177",
   "status": "proved",
   "theorems": [
    "prefix_multiplies",
    "prefix_binary",
    "chunk_prefix",
    "chunk_bytes"
   ],
   "note": "Doubles are exact rationals; pow(2.0,2.0/0.3), for hi, is an argument."
  },
  {
   "property": "C178",
   "status": "partial",
   "theorems": [
    "prefix_fraction_refuted",
    "chunk_negative_refuted",
    "chunk_zero_refuted",
    "listing_unlimited_refuted"
   ],
   "note": "REFUTED in all parts: d, c, m, u and the other fractions are ignored (5m is 5, and the m is left unread); -chunksize -1 is taken and its conversion to size_t is undefined; -chunksize 0 is taken and nothing of the content is enciphered, without an error; an unlimited area, memory or map is listed as 18.446744EB or 16EiB."
  },
  {
   "property": "C179",
   "status": "proved",
   "theorems": [
    "print_injective",
    "print_shape"
   ],
   "note": "Lengths below 2^53."
  },
  {
   "property": "C180",
   "status": "proved",
   "theorems": [
    "HMAC_stream",
    "ConstructHMAC_ok",
    "ResetHMAC_ok",
    "is_hmac_unique"
   ],
   "note": "The part of C22 that holds. Keys and pieces below 2^29 bytes; with the block of 64 bytes that the code uses for SHA-3 too. SHA-224 and the block of SHA-3 are in C22."
  },
  {
   "property": "C181",
   "status": "proved",
   "theorems": [
    "random_value_range",
    "GetRandomValue_stream"
   ],
   "note": "The part of C27 that holds. That 1 itself can be returned is in C27."
  },
  {
   "property": "C182",
   "status": "proved",
   "theorems": [
    "authenticate_only_if_digest"
   ],
   "note": "The part of C35 that holds."
  },
  {
   "property": "C183",
   "status": "proved",
   "theorems": [
    "concatenate_wizard_string",
    "concatenate_wizard_string_full"
   ],
   "note": "The part of C51 that holds. For a destination that is a C string within the length, or is full."
  },
  {
   "property": "C184",
   "status": "proved",
   "theorems": [
    "resource_restore",
    "resource_over_return"
   ],
   "note": "The part of C57 that holds. Below 2^63."
  },
  {
   "property": "C185",
   "status": "proved",
   "theorems": [
    "option_list"
   ],
   "note": "The part of C60 that holds."
  },
  {
   "property": "C186",
   "status": "proved",
   "theorems": [
    "file_to_blob_seek"
   ],
   "note": "The part of C64 that holds."
  },
  {
   "property": "C187",
   "status": "proved",
   "theorems": [
    "SHA256_length"
   ],
   "note": "The part of C65 that holds. Larger updates are in C65."
  },
  {
   "property": "C188",
   "status": "proved",
   "theorems": [
    "getentropy_used"
   ],
   "note": "The part of C69 that holds. What happens without it is in C69."
  },
  {
   "property": "C189",
   "status": "proved",
   "theorems": [
    "memory_writes"
   ],
   "note": "The part of C79 that holds. Mapped files are in C79."
  },
  {
   "property": "C190",
   "status": "proved",
   "theorems": [
    "format_denotes"
   ],
   "note": "The part of C105 that holds. Other zones are in C105."
  },
  {
   "property": "C191",
   "status": "proved",
   "theorems": [
    "parse_format",
    "parse_west",
    "parse_east"
   ],
   "note": "The part of C106 that holds. strtod is an argument with its law."
  },
  {
   "property": "C192",
   "status": "proved",
   "theorems": [
    "head_tail",
    "tail_of_name",
    "chop_components"
   ],
   "note": "The part of C108 that holds. Files right below the root are in C108, colons and brackets in C110."
  },
  {
   "property": "C193",
   "status": "proved",
   "theorems": [
    "root_extension",
    "base_of_file",
    "no_extension",
    "append_extension",
    "append_new_extension"
   ],
   "note": "The part of C109 that holds. Hidden files are in C109."
  },
  {
   "property": "C194",
   "status": "proved",
   "theorems": [
    "subnode_path",
    "filesystem_path"
   ],
   "note": "The part of C110 that holds."
  },
  {
   "property": "C195",
   "status": "proved",
   "theorems": [
    "token_fits",
    "token_progress",
    "token_safe"
   ],
   "note": "The part of C113 that holds. Parentheses are in C113."
  },
  {
   "property": "C196",
   "status": "proved",
   "theorems": [
    "mime_found"
   ],
   "note": "The part of C114 that holds. Unreadable entries are in C114."
  },
  {
   "property": "C197",
   "status": "proved",
   "theorems": [
    "magic_read",
    "magic_round_trip",
    "magic_fits"
   ],
   "note": "The part of C115 that holds. The backslash at the end is in C115."
  },
  {
   "property": "C198",
   "status": "proved",
   "theorems": [
    "locale_loaded"
   ],
   "note": "The part of C116 that holds. strtod is an argument with its law."
  },
  {
   "property": "C199",
   "status": "proved",
   "theorems": [
    "throw_list",
    "throw_kept",
    "inherit_list"
   ],
   "note": "The part of C118 that holds."
  },
  {
   "property": "C200",
   "status": "proved",
   "theorems": [
    "severity_last"
   ],
   "note": "The part of C119 that holds."
  },
  {
   "property": "C201",
   "status": "proved",
   "theorems": [
    "catch_fatal"
   ],
   "note": "The part of C120 that holds. That the others are then treated as fatal too is in C120."
  },
  {
   "property": "C202",
   "status": "proved",
   "theorems": [
    "tag_distinct"
   ],
   "note": "The part of C121 that holds. The severity an exception is logged with is in C121."
  },
  {
   "property": "C203",
   "status": "proved",
   "theorems": [
    "timer_shows",
    "timer_stopped"
   ],
   "note": "The part of C122 that holds. Reset is in C122."
  },
  {
   "property": "C204",
   "status": "proved",
   "theorems": [
    "phrase_read",
    "phrase_modes",
    "phrase_fits",
    "passphrase_agreed",
    "passphrase_twice"
   ],
   "note": "The part of C123 that holds. What happens without input is in C123."
  },
  {
   "property": "C205",
   "status": "proved",
   "theorems": [
    "time_rounded"
   ],
   "note": "The part of C127 that holds. The remaining times are in C127."
  },
  {
   "property": "C206",
   "status": "proved",
   "theorems": [
    "events_written",
    "records_injective"
   ],
   "note": "The part of C128 that holds. Limits from 2^43 on and events with < are in C128."
  },
  {
   "property": "C207",
   "status": "proved",
   "theorems": [
    "handlers_parsed"
   ],
   "note": "The part of C129 that holds."
  },
  {
   "property": "C208",
   "status": "proved",
   "theorems": [
    "unique_name",
    "portable_spread",
    "unique_new"
   ],
   "note": "The part of C131 that holds."
  },
  {
   "property": "C209",
   "status": "proved",
   "theorems": [
    "relinquish_removes",
    "terminus_removes",
    "history_apart",
    "nothing_left"
   ],
   "note": "The part of C133 that holds. With a limit see C133; names that differ in case see C132."
  },
  {
   "property": "C210",
   "status": "proved",
   "theorems": [
    "utf16_read",
    "utf16_in_block",
    "utf16_unmarked"
   ],
   "note": "The part of C134 that holds. What is behind the text is in C134."
  },
  {
   "property": "C211",
   "status": "proved",
   "theorems": [
    "attribute_changed",
    "attribute_first",
    "attribute_none",
    "attribute_found",
    "attribute_set_get"
   ],
   "note": "The part of C135 that holds. Adding a second attribute and removing one are in C135."
  },
  {
   "property": "C212",
   "status": "proved",
   "theorems": [
    "search_split",
    "options_found",
    "options_home",
    "config_home_order"
   ],
   "note": "The part of C136 that holds. Names that do not fit are in C136."
  },
  {
   "property": "C213",
   "status": "proved",
   "theorems": [
    "load_reach",
    "load_own_last",
    "load_ends",
    "include_target",
    "load_files"
   ],
   "note": "The part of C137 that holds. Cycles load their files many times, see C137."
  },
  {
   "property": "C214",
   "status": "proved",
   "theorems": [
    "info_found",
    "info_stable",
    "info_first"
   ],
   "note": "The part of C138 that holds. Entries without a name are in C138."
  },
  {
   "property": "C215",
   "status": "proved",
   "theorems": [
    "info_list",
    "name_list_sorted"
   ],
   "note": "The part of C139 that holds. The list of types is in C139."
  },
  {
   "property": "C216",
   "status": "proved",
   "theorems": [
    "once_loaded",
    "once_exclusive",
    "once_progress",
    "once_steps"
   ],
   "note": "The part of C140 that holds. OpenMP without a start is in C140."
  },
  {
   "property": "C217",
   "status": "proved",
   "theorems": [
    "lock_turns",
    "lock_waits",
    "unlock_other",
    "unlock_twice"
   ],
   "note": "The part of C141 that holds. Recursive locks are in C141."
  },
  {
   "property": "C218",
   "status": "proved",
   "theorems": [
    "life_balanced",
    "life_bounded",
    "genesis_again",
    "ending_again",
    "ending_clean",
    "unique_file_running"
   ],
   "note": "The part of C142 that holds. The configuration component and calls after the end are in C142."
  },
  {
   "property": "C219",
   "status": "proved",
   "theorems": [
    "signals_caught",
    "signals_others",
    "signals_table",
    "signal_user",
    "signal_exits"
   ],
   "note": "The part of C143 that holds. Masks, reports and repeated starts are in C143 and C144."
  },
  {
   "property": "C220",
   "status": "proved",
   "theorems": [
    "doctype_ends",
    "parameter_reference",
    "standalone_read",
    "standalone_only"
   ],
   "note": "The part of C146 that holds. Parameter entities are in C146."
  },
  {
   "property": "C221",
   "status": "proved",
   "theorems": [
    "path_number",
    "path_prefix_found"
   ],
   "note": "The part of C150 that holds. That this is not the n-th with the tag is in C150."
  },
  {
   "property": "C222",
   "status": "proved",
   "theorems": [
    "path_added",
    "path_added_twice"
   ],
   "note": "The part of C151 that holds. Numbers in paths are in C151."
  },
  {
   "property": "C223",
   "status": "proved",
   "theorems": [
    "limit_environment",
    "limit_number",
    "genesis_used"
   ],
   "note": "The part of C154 that holds. Units and negative numbers are in C154."
  },
  {
   "property": "C224",
   "status": "proved",
   "theorems": [
    "limit_files"
   ],
   "note": "The part of C155 that holds. Fewer files are in C155."
  },
  {
   "property": "C225",
   "status": "proved",
   "theorems": [
    "number_read",
    "element_read"
   ],
   "note": "strtol with base 0 is modelled; digits of numbers are as in C. The XML parser is modelled elsewhere."
  },
  {
   "property": "C226",
   "status": "proved",
   "theorems": [
    "mime_configured",
    "find_same"
   ],
   "note": "For entries with offsets from 0 on and readable patterns; includes are in C137."
  },
  {
   "property": "C227",
   "status": "partial",
   "theorems": [
    "offset_negative_refuted",
    "escaped_number_refuted",
    "unknown_names_refuted",
    "entity_refuted"
   ],
   "note": "REFUTED in all parts: an element with a negative offset fails an assertion at every lookup; a number with an escape is read together with the rest of the text behind it; an unknown byte order is big-endian and an unknown data type a string; &lt; is replaced although the XML parser has already done so."
  },
  {
   "property": "C228",
   "status": "proved",
   "theorems": [
    "wizard_type"
   ],
   "note": "Names of up to the extent of a path minus nine bytes."
  },
  {
   "property": "C229",
   "status": "partial",
   "theorems": [
    "wizard_any_refuted",
    "wizard_capital_refuted"
   ],
   "note": "REFUTED: an entry without pattern whose magic is empty or a space is returned for every unknown name; a pattern with a capital letter is never found, since the name is in lower case and the pattern is not."
  },
  {
   "property": "C230",
   "status": "proved",
   "theorems": [
    "configure_listing",
    "mime_listing"
   ],
   "note": ""
  },
  {
   "property": "C231",
   "status": "partial",
   "theorems": [
    "untyped_refuted",
    "no_types_refuted"
   ],
   "note": "REFUTED: a visible element without a name or type is dereferenced as NULL; with the built-in map, which is empty, listing the types prints nothing and returns false without an exception."
  },
  {
   "property": "C232",
   "status": "proved",
   "theorems": [
    "destroy_gives_back",
    "destroy_tree_gives_back",
    "destroy_key_gives_back",
    "destroy_twice"
   ],
   "note": "Addresses are not used again in the model; memory is never short. Pass phrases are in C237."
  },
  {
   "property": "C233",
   "status": "proved",
   "theorems": [
    "objects_history",
    "nothing_left"
   ],
   "note": "Programs over objects of eight classes and seven setters; the strings that are set from are in other variables (see C238)."
  },
  {
   "property": "C234",
   "status": "proved",
   "theorems": [
    "key_life"
   ],
   "note": ""
  },
  {
   "property": "C235",
   "status": "proved",
   "theorems": [
    "setters_copy",
    "authenticate_id_copies",
    "string_overwritten",
    "nonce_overwritten"
   ],
   "note": ""
  },
  {
   "property": "C236",
   "status": "partial",
   "theorems": [
    "destroy_zeros_refuted"
   ],
   "note": "REFUTED: every block that is freed keeps all its bytes, keys and seeds included; only the first eight bytes of the seed of a generator are zeroed (sizeof of a pointer)."
  },
  {
   "property": "C237",
   "status": "partial",
   "theorems": [
    "passphrase_leaks_refuted"
   ],
   "note": "REFUTED: the pass phrase stays allocated, with its text, whenever there is one; all other blocks are freed."
  },
  {
   "property": "C238",
   "status": "partial",
   "theorems": [
    "own_value_refuted",
    "own_id_refuted"
   ],
   "note": "REFUTED: the member is freed before it is copied, so that freed memory is read, whatever the object."
  },
  {
   "property": "C239",
   "status": "partial",
   "theorems": [
    "own_nonce_refuted"
   ],
   "note": "REFUTED: the bytes are zeroed first and copied from themselves; the nonce becomes zeros."
  },
  {
   "property": "C240",
   "status": "proved",
   "theorems": [
    "resource_threads",
    "resource_threads_run"
   ],
   "note": "Sequentially consistent memory; each load, store and test of a counter is a step. resource_threads_run: what is proved of histories of calls (C26-C29) holds of threads."
  },
  {
   "property": "C241",
   "status": "proved",
   "theorems": [
    "splay_threads",
    "splay_threads_map"
   ],
   "note": "A splay, the linking of a node, the counting of it and each look at root, next or nodes are steps."
  },
  {
   "property": "C242",
   "status": "partial",
   "theorems": [
    "splay_get_removed_refuted",
    "splay_get_missed_refuted",
    "splay_walkers_refuted"
   ],
   "note": "REFUTED: the root is looked at before the lock is taken, so that a lookup that meets the removal of the last node dereferences NULL; it is NULL for a while during each removal, so that a key which is there all the time is not found; the second of two threads that walk compares a NULL key. What holds without removals is C241."
  },
  {
   "property": "C243",
   "status": "partial",
   "theorems": [
    "list_capacity_refuted",
    "list_capacity_alone",
    "list_remove_refuted"
   ],
   "note": "REFUTED: elements and capacity are compared before the lock is taken; for every list with one free place two threads exceed the capacity, for every list of one value one of two threads that remove the last dereferences NULL."
  },
  {
   "property": "C244",
   "status": "proved",
   "theorems": [
    "random_threads",
    "random_threads_stream"
   ],
   "note": "Each byte of the rest, each digest and each increment of the nonce is a step."
  },
  {
   "property": "C245",
   "status": "partial",
   "theorems": [
    "pseudo_random_refuted",
    "pseudo_random_order_refuted"
   ],
   "note": "REFUTED: there is no lock; from every seed two threads can get the same value."
  },
  {
   "property": "C246",
   "status": "proved",
   "theorems": [
    "xml_programs_build_forests",
    "xml_programs_leak_nothing"
   ],
   "note": "The links to siblings and to the next child with the same tag are left open here (C248, C249). NULL values of attributes (removal) are not modelled; that all calls return is a hypothesis, which C248 discharges for programs without PruneTagFromXMLTree."
  },
  {
   "property": "C247",
   "status": "proved",
   "theorems": [
    "xml_destroy_exact"
   ],
   "note": "With 2 * size of recursion depth."
  },
  {
   "property": "C248",
   "status": "proved",
   "theorems": [
    "xml_safe_programs_return"
   ],
   "note": "A second attribute of an element reads a slot that was not written (C135)."
  },
  {
   "property": "C249",
   "status": "partial",
   "theorems": [
    "xml_prune_refuted",
    "xml_prune_hides_refuted"
   ],
   "note": "REFUTED: an element inserted before another one with the same tag keeps it as its sibling; when that one is pruned and destroyed, GetXMLTreeChild uses it after it was given back. When the first child is pruned, later children with its tag are not found any more."
  },
  {
   "property": "C250",
   "status": "partial",
   "theorems": [
    "xml_insert_root_leaks_refuted",
    "xml_no_tag_leaks_refuted"
   ],
   "note": "REFUTED: InsertTagIntoXMLTree sets the parent of a root that NewXMLTreeTag made, so that DestroyXMLTreeRoot never gives back its table of entities; NewXMLTree of a text without < forgets the root it made (3 blocks, for every such text)."
  },
  {
   "property": "C251",
   "status": "partial",
   "theorems": [
    "xml_destroy_inner_refuted"
   ],
   "note": "REFUTED: the children behind the element are destroyed too, and the parent keeps its address: destroying the parent uses a block that was given back. What holds for elements that are below no other is C247."
  },
  {
   "property": "C252",
   "status": "proved",
   "theorems": [
    "xml_children_found"
   ],
   "note": "On the memory model of C246, for all offsets (C94 is about appending and C95 leaves out insertions before a first child with the same tag). Programs that prune are excluded because the claim is false for them (C249)."
  },
  {
   "property": "C253",
   "status": "proved",
   "theorems": [
    "locale_info_list",
    "locale_listing"
   ],
   "note": "Up to 2^1024 calls; patterns without braces (C75)."
  },
  {
   "property": "C254",
   "status": "partial",
   "theorems": [
    "locale_list_misses_refuted"
   ],
   "note": "REFUTED for every cache: GetLocaleInfo_(\"*\") has moved the iterator past the first message and GetLocaleList does not reset it (GetLocaleInfoList does), so that the tag that comes first is never in the list."
  },
  {
   "property": "C255",
   "status": "proved",
   "theorems": [
    "strings_as_meant",
    "strings_given_back"
   ],
   "note": "WizardPathExtent and the greatest size_t are parameters; malloc is assumed to succeed."
  },
  {
   "property": "C256",
   "status": "partial",
   "theorems": [
    "own_text_refuted",
    "append_null_refuted"
   ],
   "note": "REFUTED for every nonempty text: CloneString(&s,s) resizes the block and then copies from the old one: given back when realloc moved it, overlapping when it did not; ConcatenateString(&s,s) reads the block that was given back when realloc moved it; ConcatenateString(&s,NULL) takes strlen(NULL) when s is not NULL, although it returns an empty string when s is NULL."
  },
  {
   "property": "C257",
   "status": "proved",
   "theorems": [
    "client_as_meant"
   ],
   "note": "Starts are covered for paths that are not taken apart at a colon or a bracket (C110)."
  },
  {
   "property": "C258",
   "status": "proved",
   "theorems": [
    "client_start"
   ],
   "note": "For paths that fit and are not taken apart at a colon or a bracket (C110)."
  },
  {
   "property": "C259",
   "status": "partial",
   "theorems": [
    "client_path_refuted"
   ],
   "note": "REFUTED for all programs: the head of a path without a directory is empty, and SetClientPath takes an empty path for no path, so that the path of an earlier start stays; the head of /g is empty, not /, so that configuration files beside a program in the root are not looked for."
  },
  {
   "property": "C260",
   "status": "proved",
   "theorems": [
    "document_returns"
   ],
   "note": "Texts with % are excluded: parameter entities that refer to themselves expand for ever (C146)."
  },
  {
   "property": "C261",
   "status": "proved",
   "theorems": [
    "document_as_meant",
    "document_defaults"
   ],
   "note": "Values of entities are not empty and have neither markup nor references where they are used, and no ] of the declarations has only spaces between it and a > (C262); without CDATA sections, comments and instructions among the elements (C93 has more of the elements, without a DOCTYPE)."
  },
  {
   "property": "C262",
   "status": "partial",
   "theorems": [
    "entity_markup_refuted",
    "doctype_quoted_refuted"
   ],
   "note": "REFUTED: the value of an entity is inserted as text, <b/> in it makes no child; ]> inside a quoted value ends the document type, the value is cut there and nothing is reported."
  },
  {
   "property": "C263",
   "status": "proved",
   "theorems": [
    "hashmap_holds",
    "hashmap_relinquishes",
    "hashmap_once"
   ],
   "note": "The blocks of the map itself (entries, elements, buckets) are not counted; what is at a key does not change while the map holds it."
  },
  {
   "property": "C264",
   "status": "proved",
   "theorems": [
    "hashmap_methods"
   ],
   "note": ""
  },
  {
   "property": "C265",
   "status": "partial",
   "theorems": [
    "put_again_refuted",
    "put_refused_refuted",
    "put_answer"
   ],
   "note": "REFUTED: replacing the value of a key with the same key pointer relinquishes the key and keeps it in the map; if the map must grow and cannot, Put returns False with the entry in the map, and does not count it. Proved: True means taken; False means not taken unless the map could not grow."
  },
  {
   "property": "C266",
   "status": "proved",
   "theorems": [
    "splay_holds",
    "splay_relinquishes",
    "splay_once"
   ],
   "note": "Keys are not NULL (the iterator takes a NULL key for the end). What is at a key does not change while the tree holds it. The nodes themselves are covered by C66."
  },
  {
   "property": "C267",
   "status": "proved",
   "theorems": [
    "splay_methods"
   ],
   "note": ""
  },
  {
   "property": "C268",
   "status": "proved",
   "theorems": [
    "splay_reads",
    "iterator_live"
   ],
   "note": "With a compare method; without one pointers are compared and nothing is read."
  },
  {
   "property": "C269",
   "status": "partial",
   "theorems": [
    "add_again_refuted",
    "iterator_stale_refuted",
    "iterator_freed_refuted"
   ],
   "note": "REFUTED: replacing the value of a key with the same key pointer relinquishes the key and keeps it in the tree (the same for the value); after DeleteNodeFromSplayTree of the key the iterator waits at, splay_tree->next still points to it and the next GetNextKeyInSplayTree compares it: two memories that differ only at that key give different answers. Proved instead: C266 for pointers taken once, C268 for walks without deletions."
  },
  {
   "property": "C270",
   "status": "proved",
   "theorems": [
    "list_relinquishes",
    "list_once"
   ],
   "note": "NULL values (AppendValueToLinkedList accepts them) are given to the method too, and are not counted here. Sorted insertion is in C46."
  },
  {
   "property": "C271",
   "status": "partial",
   "theorems": [
    "insert_leak_refuted"
   ],
   "note": "REFUTED: of every list, a value inserted strictly inside is accepted, is not among the values of the list afterwards and is not relinquished by DestroyLinkedList: it leaks."
  },
  {
   "property": "C272",
   "status": "proved",
   "theorems": [
    "rules_kept",
    "reported",
    "zip_failures",
    "lzma_failures",
    "success_idle",
    "success_length"
   ],
   "note": ""
  },
  {
   "property": "C273",
   "status": "proved",
   "theorems": [
    "lzma_idle"
   ],
   "note": ""
  },
  {
   "property": "C274",
   "status": "partial",
   "theorems": [
    "ended_refuted",
    "zip_held",
    "held_by_requests"
   ],
   "note": "REFUTED: zip.c and bzip.c return without deflateEnd, inflateEnd, BZ2_bzCompressEnd or BZ2_bzDecompressEnd when coding fails, as it does for each damaged or too long message. Proved: a coder of zip or bzip stays open exactly when coding failed, and over any sequence of requests the number of coders left open is the number of such failures."
  },
  {
   "property": "C275",
   "status": "proved",
   "theorems": [
    "write_chunk_prefix",
    "read_chunk_prefix",
    "write_chunk_all",
    "read_chunk_all"
   ],
   "note": ""
  },
  {
   "property": "C276",
   "status": "partial",
   "theorems": [
    "write_large_refuted",
    "write_chunk_large",
    "read_chunk_large",
    "write_stuck_refuted"
   ],
   "note": "REFUTED: the length is cast to (unsigned int) for zlib and to (int) for bzip2, which refuse lengths above INT_MAX: of 2 GiB to 4 GiB nothing is written or read, and 0 is returned. A stream that takes nothing while errno is EINTR, from whatever call, is tried for ever."
  },
  {
   "property": "C277",
   "status": "proved",
   "theorems": [
    "read_random_whole",
    "read_random_complete",
    "gather_whole"
   ],
   "note": ""
  },
  {
   "property": "C278",
   "status": "partial",
   "theorems": [
    "device_failure_refuted"
   ],
   "note": "REFUTED: ReadRandom returns -1, which is cast to size_t and given to SetStringInfoLength: the program ends, with \"memory allocation failed\"."
  },
  {
   "property": "C279",
   "status": "partial",
   "theorems": [
    "estimate_refuted",
    "estimate_accepts"
   ],
   "note": "REFUTED: the test is the wrong way round: it asks whether the string is shorter than half of the compressed string. Every string that compresses well passes, and with the bounds of zlib every string of ten bytes or more does (two theorems)."
  },
  {
   "property": "C280",
   "status": "proved",
   "theorems": [
    "inherit_no_deadlock",
    "turns_end"
   ],
   "note": ""
  },
  {
   "property": "C281",
   "status": "partial",
   "theorems": [
    "inherit_cross_refuted",
    "inherit_self_refuted",
    "handler_throws_refuted"
   ],
   "note": "REFUTED: InheritException holds the semaphore of relative while it throws to exception: two threads that inherit from each other's exceptions block each other; an exception that is not empty and inherits from itself blocks its thread, whatever it holds; a handler that throws to the exception it is called for does the same, as CatchException holds its semaphore."
  },
  {
   "property": "C282",
   "status": "proved",
   "theorems": [
    "listing_lines",
    "option_entry",
    "listing_parses",
    "listing_complete",
    "list_command_lists"
   ],
   "note": ""
  },
  {
   "property": "C283",
   "status": "partial",
   "theorems": [
    "list_resources_refuted"
   ],
   "note": "REFUTED: the table of resources has no name in ListOptions: no argument whatsoever prints it. The table of log events has none either, but is printed as that of debug."
  },
  {
   "property": "C284",
   "status": "proved",
   "theorems": [
    "signal_removes",
    "signal_between_calls",
    "signal_spares"
   ],
   "note": ""
  },
  {
   "property": "C285",
   "status": "partial",
   "theorems": [
    "signal_hangs_refuted",
    "signal_leaves_refuted",
    "signal_random_refuted"
   ],
   "note": "REFUTED: the handler locks semaphores that the interrupted thread may hold. In every AcquireUniqueFileResource there is a moment at which nothing is removed and the process never ends; one at which it ends but the new file stays; and one, in GetRandomKey, at which the files are removed but the process does not end."
  },
  {
   "property": "C286",
   "status": "proved",
   "theorems": [
    "files_settle",
    "standard_settles"
   ],
   "note": ""
  },
  {
   "property": "C287",
   "status": "partial",
   "theorems": [
    "exempt_refuted",
    "failed_open_refuted",
    "extend_refuted"
   ],
   "note": "REFUTED: CloseBlob does not close exempt streams, and those of descriptors, commands (never waited for) and named pipes are exempt; a blob that cannot be opened is freed without its semaphore; SetBlobExtent of a mapped file unmaps it and leaves it marked as mapped: it is unmapped again, and the resource given back twice."
  },
  {
   "property": "C288",
   "status": "proved",
   "theorems": [
    "methods_refine",
    "methods_start",
    "methods_back"
   ],
   "note": ""
  },
  {
   "property": "C289",
   "status": "partial",
   "theorems": [
    "methods_switched_refuted",
    "methods_part_refuted"
   ],
   "note": "REFUTED: a block held while the methods are replaced is handed to the destroy or resize method of the other allocator, in every state that a program can reach; when only some methods are given, every block acquired afterwards is handed to the wrong allocator."
  },
  {
   "property": "C290",
   "status": "proved",
   "theorems": [
    "fatal_ends",
    "fatal_status",
    "handlers_last",
    "handlers_returned",
    "handlers_restored",
    "plain_caught"
   ],
   "note": ""
  },
  {
   "property": "C291",
   "status": "partial",
   "theorems": [
    "fatal_silent_refuted",
    "fatal_success_refuted",
    "fatal_domain_refuted",
    "fatal_ambiguous_refuted",
    "place_hidden_refuted"
   ],
   "note": "REFUTED: ThrowWizardFatalError throws with severity UndefinedException, for which CatchException calls no handler, so nothing is shown; (RandomDomain, MemoryError) has the status of success; HashError, EntropyError and CipherError are given where a domain is meant, so the status names the parser or no domain; statuses of fatal exceptions coincide with those of domains; the place is cut off after a long reason."
  },
  {
   "property": "C292",
   "status": "proved",
   "theorems": [
    "keys_private",
    "keys_alone",
    "keys_isolated"
   ],
   "note": "pthread_key_create and its kin are modelled as POSIX states them."
  },
  {
   "property": "C293",
   "status": "partial",
   "theorems": [
    "keys_shared_refuted",
    "keys_unset_refuted",
    "keys_variants_refuted"
   ],
   "note": "REFUTED: without thread support a key is one word of memory for all threads, and it is not cleared, so a key that was not set does not read as NULL.  Windows threads get this variant as well: the code for them needs MAGICKORE_HAVE_WINTHREADS, which nothing defines (semaphore.c has WIZARDSTOOLKIT_HAVE_WINTHREADS)."
  },
  {
   "property": "C294",
   "status": "proved",
   "theorems": [
    "log_apart",
    "log_loggers",
    "log_single",
    "log_closed"
   ],
   "note": ""
  },
  {
   "property": "C295",
   "status": "partial",
   "theorems": [
    "log_close_refuted",
    "log_spoilt_refuted",
    "log_text_lost_refuted"
   ],
   "note": "REFUTED: CloseWizardLog takes log_semaphore, LogWizardEventList the event_semaphore of the entry, so the stream is closed or NULL when the event is written, or it is closed twice, or the file has two ends; when the file cannot be opened (and when its name cannot be made) LogWizardEventList returns without freeing the text."
  },
  {
   "property": "C296",
   "status": "proved",
   "theorems": [
    "attributes_copied",
    "attributes_agree"
   ],
   "note": ""
  },
  {
   "property": "C297",
   "status": "partial",
   "theorems": [
    "attributes_twice_refuted",
    "attributes_default_refuted",
    "attributes_memory_refuted"
   ],
   "note": "REFUTED: of two attributes of one name GetXMLTreeAttribute tells the first and the tree has the last; attributes by default are not in the tree; a failed AddValueToSplayTree is ignored and WizardTrue returned."
  },
  {
   "property": "C298",
   "status": "proved",
   "theorems": [
    "lock_granted",
    "lock_gives_up"
   ],
   "note": ""
  },
  {
   "property": "C299",
   "status": "proved",
   "theorems": [
    "limit_read",
    "resource_read",
    "area_read"
   ],
   "note": ""
  },
  {
   "property": "C300",
   "status": "partial",
   "theorems": [
    "area_given_back_refuted",
    "read_wraps_refuted",
    "megabytes_refuted"
   ],
   "note": "REFUTED: an area that was given back is still told to be in use; after requests of 2^63 and 2^62 bytes, both granted, more is told than the limit; the unit is the byte."
  },
  {
   "property": "C301",
   "status": "proved",
   "theorems": [
    "log_name_last",
    "log_name_own"
   ],
   "note": ""
  },
  {
   "property": "C302",
   "status": "proved",
   "theorems": [
    "glob_words",
    "glob_words_apart"
   ],
   "note": ""
  },
  {
   "property": "C303",
   "status": "partial",
   "theorems": [
    "glob_words_refuted",
    "glob_longer_refuted"
   ],
   "note": "REFUTED: after a word its longer forms are never matched, so {jp,jpg} does not match jpg while {jpg,jp} does; and beginnings of words match."
  }
 ]
}