{"id": "C01", "title": "AES enciphering is FIPS-197 AES", "statement": "Enciphering one 16-byte block with an AES cipher handle whose key was set from a 16, 24 or 32 byte key yields exactly the ciphertext FIPS-197 defines (SubBytes, ShiftRows, MixColumns, AddRoundKey over GF(2^8), 10/12/14 rounds).", "quantifier": "every 128/192/256-bit key and every 16-byte block", "why_tests_cant": "2^128 blocks times 2^256 keys; the implementation uses precomputed T-tables, one wrong table entry is hit by a vanishing fraction of vectors.", "anchors": ["wizard/aes.c:EncipherAESBlock", "wizard/aes.c:SetAESKey", "wizard/aes.c:ByteSubTransform", "wizard/aes.c:FinalizeRoundKey"]}
{"id": "C02", "title": "AES decipher inverts encipher", "statement": "After SetAESKey with any key of any length, DecipherAESBlock(EncipherAESBlock(b)) = b and EncipherAESBlock(DecipherAESBlock(b)) = b for every 16-byte block b.", "quantifier": "every key string of every length and every block", "why_tests_cant": "inverse tables and the separately derived decipher key schedule must agree for every key/block pair; only a handful of FIPS vectors are tested.", "anchors": ["wizard/aes.c:DecipherAESBlock", "wizard/aes.c:EncipherAESBlock", "wizard/aes.c:SetAESKey", "wizard/aes.c:InverseAddRoundKey"]}
{"id": "C03", "title": "ChaCha block function is ChaCha20 core XOR, and is an involution", "statement": "Enciphering a 64-byte block XORs it with the 20-round ChaCha core of the key-derived state (little-endian serialisation); deciphering is the same map, so deciphering an enciphered block returns it, for every key length.", "quantifier": "every key string and every 64-byte block", "why_tests_cant": "keystream word order/rotation errors cancel in a self-inverse round-trip test, and only full enumeration of inputs shows the involution.", "anchors": ["wizard/chacha.c:EncipherChachaBlock", "wizard/chacha.c:DecipherChachaBlock", "wizard/chacha.c:SetChachaKey"]}
{"id": "C04", "title": "Serpent decipher inverts encipher", "statement": "For every key schedule, DecipherSerpentBlock(EncipherSerpentBlock(b)) = b and conversely.", "quantifier": "every key schedule (hence every key) and every block", "why_tests_cant": "eight bit-sliced S-boxes with hand-scheduled registers: an error in one boolean term shows up only for some input bit combinations.", "anchors": ["wizard/serpent.c:EncipherSerpentBlock", "wizard/serpent.c:DecipherSerpentBlock", "wizard/serpent.c:SetSerpentKey"]}
{"id": "C05", "title": "Serpent enciphers the whole cipher block", "statement": "GetCipherBlocksize bytes of plaintext are all transformed by one block encipherment: no byte of a block reaches the ciphertext unchanged for every key.", "quantifier": "every key and every block of GetCipherBlocksize bytes", "why_tests_cant": "needs a statement about all keys simultaneously; a unit test compares one vector of the first 16 bytes.", "anchors": ["wizard/serpent.c:SerpentBlocksize", "wizard/serpent.c:EncipherSerpentBlock", "wizard/cipher.c:EncipherECBMode"]}
{"id": "C06", "title": "Twofish decipher inverts encipher", "statement": "For every key schedule and S-box content, DecipherTwofishBlock(EncipherTwofishBlock(b)) = b and conversely.", "quantifier": "every key schedule (hence every key) and every block", "why_tests_cant": "sixteen unrolled Feistel rounds with one-bit rotations; key-dependent S-boxes make exhaustive testing impossible.", "anchors": ["wizard/twofish.c:EncipherTwofishBlock", "wizard/twofish.c:DecipherTwofishBlock"]}
{"id": "C07", "title": "EncipherCipher then DecipherCipher returns the plaintext", "statement": "With one CipherInfo (any of AES, Chacha, Serpent, Twofish; any of CBC, CFB, CTR, ECB, OFB), deciphering in place the StringInfo produced by EncipherCipher yields a StringInfo with the same length and the same bytes as the original plaintext, whatever random pad bytes were drawn, provided the CTR counter does not wrap.", "quantifier": "every cipher, mode, key, nonce, plaintext length and content, and every sequence of random pad bytes", "why_tests_cant": "5 modes x 4 ciphers x unbounded lengths; the padding lives beyond the reported length, and its bytes are random so runs are not reproducible.", "anchors": ["wizard/cipher.c:EncipherCipher", "wizard/cipher.c:DecipherCipher", "wizard/cipher.c:EncipherCBCMode", "wizard/cipher.c:EncipherCFBMode", "wizard/cipher.c:EncipherCTRMode", "wizard/cipher.c:EncipherECBMode", "wizard/cipher.c:EncipherOFBMode"]}
{"id": "C08", "title": "Modes of operation follow SP 800-38A", "statement": "The ciphertext is the SP 800-38A CBC, CFB-8, CTR, ECB or OFB encryption of the padded message under the nonce as initial vector / initial counter block (big-endian increment).", "quantifier": "every block function, mode, nonce and message", "why_tests_cant": "interoperability must hold for all lengths and block counts, including counter carries that need 2^8, 2^16, ... blocks to appear.", "anchors": ["wizard/cipher.c:EncipherCBCMode", "wizard/cipher.c:EncipherCFBMode", "wizard/cipher.c:EncipherCTRMode", "wizard/cipher.c:EncipherOFBMode", "wizard/cipher.c:IncrementCipherNonce"]}
{"id": "C09", "title": "Cipher padding is recoverable and stays inside the buffer", "statement": "In the padded modes the enciphered region is the least multiple of the blocksize strictly greater than the length; its last plaintext byte b gives the pad, so region-1-b is the message length; and every byte written lies inside the allocation of the StringInfo.", "quantifier": "every plaintext length, every supported blocksize", "why_tests_cant": "buffer overrun and off-by-one at each residue of the length modulo the blocksize, for unbounded lengths.", "anchors": ["wizard/cipher.c:EncipherECBMode", "wizard/string.c:AcquireStringInfo", "wizard/string.c:SetStringInfoLength", "utilities/decipher.c:DecipherContent"]}
{"id": "C10", "title": "CTR counter blocks never repeat within a message", "statement": "While enciphering one message in CTR mode the sequence of counter blocks given to the block cipher has no repetition: either all are pairwise distinct or the call stops with the fatal 'Sequence wrap error'.", "quantifier": "every nonce, blocksize and number of blocks", "why_tests_cant": "a repetition needs up to 2^128 increments to be seen by running the code.", "anchors": ["wizard/cipher.c:IncrementCipherNonce", "wizard/cipher.c:EncipherCTRMode"]}
{"id": "C11", "title": "Two messages enciphered under one CipherInfo do not share a keystream", "statement": "A user who enciphers two messages with the same CipherInfo in CTR or OFB mode (as the encipher utility does for consecutive chunks) should not obtain ciphertexts whose XOR is the XOR of the plaintexts.", "quantifier": "every key, nonce and pair of messages", "why_tests_cant": "a relation between two runs for all inputs (hyperproperty).", "anchors": ["wizard/cipher.c:EncipherCTRMode", "wizard/cipher.c:EncipherOFBMode", "wizard/key.c:SetKeyInfo", "utilities/encipher.c:EncipherContent"]}
{"id": "C12", "title": "SHA-256 of a streamed message is FIPS 180-4 SHA-256", "statement": "InitializeHash, any number of UpdateHash calls of any sizes, then FinalizeHash yields the FIPS 180-4 SHA-256 digest of the concatenated message, for every message shorter than 2^61 bytes fed in chunks shorter than 2^32 bytes.", "quantifier": "every message and every way of splitting it into UpdateHash calls", "why_tests_cant": "infinitely many messages and exponentially many splittings; buffer boundary and length-carry paths depend on both.", "anchors": ["wizard/sha2256.c:InitializeSHA2256", "wizard/sha2256.c:UpdateSHA2256", "wizard/sha2256.c:FinalizeSHA2256", "wizard/sha2256.c:TransformSHA2256"]}
{"id": "C13", "title": "SHA-512 and SHA-384 of a streamed message are FIPS 180-4", "statement": "The same for SHA2-512 and SHA2-384: the digest after any splitting into updates is the FIPS 180-4 digest of the concatenation.", "quantifier": "every message (below the 2^125-byte counter limit) and every splitting", "why_tests_cant": "as for SHA-256.", "anchors": ["wizard/sha2512.c:UpdateSHA2512", "wizard/sha2512.c:FinalizeSHA2512", "wizard/sha2512.c:TransformSHA2512", "wizard/sha2384.c:FinalizeSHA2384", "wizard/sha2384.c:TransformSHA2384"]}
{"id": "C14", "title": "SHA-1 of a streamed message is FIPS 180-4 SHA-1", "statement": "The same for SHA1.", "quantifier": "every message shorter than 2^61 bytes and every splitting into chunks shorter than 2^32 bytes", "why_tests_cant": "as for SHA-256.", "anchors": ["wizard/sha1.c:UpdateSHA1", "wizard/sha1.c:FinalizeSHA1", "wizard/sha1.c:TransformSHA1"]}
{"id": "C15", "title": "MD5 of a streamed message is RFC 1321 MD5", "statement": "The same for MD5 (64-bit length taken modulo 2^64 as RFC 1321 prescribes).", "quantifier": "every message and every splitting", "why_tests_cant": "as for SHA-256.", "anchors": ["wizard/md5.c:UpdateMD5", "wizard/md5.c:FinalizeMD5", "wizard/md5.c:TransformMD5"]}
{"id": "C16", "title": "SHA-224 of a streamed message is FIPS 180-4 SHA-224", "statement": "The same for SHA2-224.", "quantifier": "every message and every splitting", "why_tests_cant": "the test suite's vectors compare against the implementation for a few messages only; a chaining-value error shows up only after the first block.", "anchors": ["wizard/sha2224.c:UpdateSHA2224", "wizard/sha2224.c:FinalizeSHA2224", "wizard/sha2224.c:TransformSHA2224"]}
{"id": "C17", "title": "SHA-3 digests are the Keccak sponge of the concatenated message", "statement": "For SHA3-224/256/384/512 the digest after any splitting into UpdateHash calls is Keccak[c]-f[1600] with pad10*1 applied to the concatenated message with the rate/capacity of that hash; FinalizeHash does not disturb the running state.", "quantifier": "every message below 2^29 bytes per update and every splitting", "why_tests_cant": "queue/rate boundary conditions for every splitting of unbounded messages.", "anchors": ["wizard/sha3.c:UpdateSHA3", "wizard/sha3.c:FinalizeSHA3", "wizard/sha3.c:Absorb", "wizard/sha3.c:Squeeze", "wizard/sha3.c:SHA3PermutationOnWords"]}
{"id": "C18", "title": "SHA-3 digests follow FIPS 202", "statement": "The SHA3 hashes agree with the FIPS 202 standard (domain-separated padding 01||10*1).", "quantifier": "every message", "why_tests_cant": "a claim about all messages; the bundled vectors were generated before the standard was final.", "anchors": ["wizard/sha3.c:PadAndSwitchToSqueezingPhase"]}
{"id": "C19", "title": "Updating a hash terminates", "statement": "UpdateHash returns for every message and history.", "quantifier": "every hash, history and update length", "why_tests_cant": "non-termination needs single updates of 2^29 bytes after a partial one; no test waits for ever.", "anchors": ["wizard/sha3.c:Absorb"]}
{"id": "C20", "title": "CRC-64 is the polynomial checksum of the concatenated message", "statement": "The CRC64 digest after any splitting is the remainder of the (reflected) message polynomial by the generator, big-endian, i.e. the bit-serial LFSR division of the message.", "quantifier": "every message and every splitting", "why_tests_cant": "table-driven code must agree with the bit-serial definition for all messages.", "anchors": ["wizard/crc64.c:InitializeCRC64", "wizard/crc64.c:UpdateCRC64", "wizard/crc64.c:FinalizeCRC64", "wizard/string.c:GetStringInfoCRC"]}
{"id": "C21", "title": "CRC-64 detects every burst of at most 64 bits", "statement": "Two messages of equal length that differ only inside a window of 8 consecutive bytes have different CRC64 digests; hence the random-state file check detects any such corruption.", "quantifier": "every message, position and corruption", "why_tests_cant": "2^64 corruptions per position.", "anchors": ["wizard/crc64.c:UpdateCRC64", "wizard/string.c:GetStringInfoCRC", "wizard/random.c:GetEntropyFromReservoir"]}
{"id": "C22", "title": "HMAC is RFC 2104 and history independent", "statement": "ConstructHMAC(key,message) produces RFC 2104 HMAC of the message under the key with the selected hash (block length = GetHashBlocksize), for keys shorter, equal or longer than the block, independently of what the HMACInfo was used for before; streaming with InitializeHMAC/UpdateHMAC*/FinalizeHMAC gives the same digest.", "quantifier": "every hash, key, message, splitting, and every earlier use of the object", "why_tests_cant": "key-length boundary plus arbitrary object history.", "anchors": ["wizard/hmac.c:InitializeHMAC", "wizard/hmac.c:UpdateHMAC", "wizard/hmac.c:FinalizeHMAC", "wizard/hmac.c:ConstructHMAC"]}
{"id": "C23", "title": "A hash object is reusable", "statement": "InitializeHash resets a HashInfo completely: the digest obtained afterwards depends only on the bytes supplied after InitializeHash, whatever happened to the object before.", "quantifier": "every hash type and every history of calls", "why_tests_cant": "histories are unbounded.", "anchors": ["wizard/hash.c:InitializeHash", "wizard/hash.c:FinalizeHash", "wizard/hash.c:UpdateHash"]}
{"id": "C24", "title": "Random byte stream is independent of how it is requested", "statement": "The concatenation of the bytes returned by any sequence of SetRandomKey/GetRandomKey requests depends only on the initial state and the total number of bytes, i.e. it is a prefix of one fixed stream HMAC(n1)||HMAC(n2)||...; no byte is ever returned twice or skipped.", "quantifier": "every initial state and every sequence of request lengths", "why_tests_cant": "leftover-reservoir bookkeeping for every sequence of lengths.", "anchors": ["wizard/random.c:SetRandomKey", "wizard/random.c:GetRandomKey", "wizard/random.c:IncrementRandomNonce"]}
{"id": "C25", "title": "The random generator never reuses a nonce", "statement": "Between two nonce values used to produce reservoir blocks there is no repetition: either they are pairwise distinct or the generator stops with a fatal sequence-wrap error.", "quantifier": "every initial nonce and every number of requests", "why_tests_cant": "a repeat is 2^500 steps away.", "anchors": ["wizard/random.c:IncrementRandomNonce", "wizard/random.c:SetRandomKey"]}
{"id": "C26", "title": "GetPseudoRandomValue never degenerates and stays in [0,1]", "statement": "The xoshiro256+ state transition is a bijection that fixes only the all-zero state, so from a non-zero seed the state is never all zero; and every returned value v satisfies 0 <= v <= 1 (the documentation says 'between 0 and 1').", "quantifier": "every 256-bit state and every number of steps", "why_tests_cant": "2^256 states.", "anchors": ["wizard/random.c:GetPseudoRandomValue"]}
{"id": "C27", "title": "Random values are strictly below one", "statement": "GetRandomValue and GetPseudoRandomValue return a value in [0,1), so floor(n*value) is always a valid index below n.", "quantifier": "every generator output word", "why_tests_cant": "the failing words are 2^-11 rare or rarer.", "anchors": ["wizard/random.c:GetRandomValue", "wizard/random.c:GetPseudoRandomValue"]}
{"id": "C28", "title": "Saved random state is restored exactly and corruption is rejected", "statement": "GetEntropyFromReservoir on the bytes SaveEntropyToReservoir wrote returns success and exactly the saved reservoir; if up to 8 consecutive payload bytes or the stored CRC are altered, or the file is truncated anywhere, it returns failure.", "quantifier": "every reservoir content, timestamp, corruption and truncation point", "why_tests_cant": "all corruptions/truncations of all contents.", "anchors": ["wizard/random.c:GetEntropyFromReservoir", "wizard/random.c:SaveEntropyToReservoir"]}
{"id": "C29", "title": "The generator's saved state carries entropy", "statement": "The reservoir written to disk and the nonce seeding a RandomInfo depend on the gathered entropy.", "quantifier": "every entropy input", "why_tests_cant": "a dependence statement over all pairs of inputs; the result is unpredictable by design so tests cannot compare.", "anchors": ["wizard/random.c:AcquireRandomInfo"]}
{"id": "C30", "title": "Keyring: every imported key can be exported", "statement": "After any sequence of ImportKeyringKey calls into a keyring file, ExportKeyringKey for the id of a successful import returns success with exactly the key and nonce that were imported.", "quantifier": "every history of imports with arbitrary ids, keys, nonces and timestamps", "why_tests_cant": "record framing must be unambiguous for all contents and histories.", "anchors": ["wizard/keyring.c:ImportKeyringKey", "wizard/keyring.c:ExportKeyringKey", "wizard/file.c:WriteFile32Bits", "wizard/file.c:ReadFile32Bits"]}
{"id": "C31", "title": "Keyring: ids are unique", "statement": "ImportKeyringKey of an id already present returns failure and leaves the file bytes unchanged.", "quantifier": "every keyring history", "why_tests_cant": "all histories.", "anchors": ["wizard/keyring.c:ImportKeyringKey"]}
{"id": "C32", "title": "Keyring: a crash during import loses no earlier key", "statement": "If the process dies at any point while ImportKeyringKey writes its record, every key that could be exported before can still be exported afterwards, with the same content.", "quantifier": "every keyring content, new record and crash point", "why_tests_cant": "crash points at every byte of every write.", "anchors": ["wizard/keyring.c:ImportKeyringKey", "wizard/keyring.c:ExportKeyringKey"]}
{"id": "C33", "title": "Keyring: a torn import does not damage later imports", "statement": "After a crash in the middle of ImportKeyringKey, keys imported afterwards can be exported.", "quantifier": "every crash point and later import", "why_tests_cant": "crash points.", "anchors": ["wizard/keyring.c:ImportKeyringKey", "wizard/keyring.c:ExportKeyringKey"]}
{"id": "C34", "title": "Keyring: only complete records are exported", "statement": "ExportKeyringKey reports success only if the record of that id is completely present in the file (id, key and nonce).", "quantifier": "every file content (including truncated and corrupt files)", "why_tests_cant": "all byte strings.", "anchors": ["wizard/keyring.c:ExportKeyringKey"]}
{"id": "C35", "title": "Secret keys: generate then authenticate", "statement": "After GenerateSecretKey with a passphrase stored key k under id i, AuthenticateSecretKey with the same keyring, passphrase and id succeeds and recovers exactly k; with another passphrase it succeeds only if an HMAC match occurs.", "quantifier": "every passphrase, key length, random stream, and prior keyring content", "why_tests_cant": "random keys; all passphrases.", "anchors": ["wizard/secret.c:GenerateSecretKey", "wizard/secret.c:AuthenticateSecretKey"]}
{"id": "C36", "title": "Success is only reported after the data was stored", "statement": "ImportKeyringKey, GenerateSecretKey and SaveEntropyToReservoir return success only when the record was really written.", "quantifier": "every write outcome (short write, full disk)", "why_tests_cant": "fault schedules.", "anchors": ["wizard/keyring.c:ImportKeyringKey", "wizard/secret.c:GenerateSecretKey", "wizard/random.c:SaveEntropyToReservoir"]}
{"id": "C37", "title": "Session key map returns what was stored", "statement": "For any history of SetKeyInfo on a KeyInfo, GetKeyInfo(id) returns a copy of the most recent key set under id (same length and bytes); keys of other ids are unaffected.", "quantifier": "every history of (id,key) pairs", "why_tests_cant": "histories are unbounded and values are stored enciphered.", "anchors": ["wizard/key.c:SetKeyInfo", "wizard/key.c:GetKeyInfo"]}
{"id": "C38", "title": "Splay tree is a finite map", "statement": "For any sequence of Add/Get/Remove/Delete/iterator operations a splay tree with a consistent total-order comparison behaves like a finite map: Get returns the value last added for an equal key and not since removed; GetNumberOfNodes is the number of keys.", "quantifier": "every operation history, keys, and compare function that is a total preorder", "why_tests_cant": "every access restructures the tree; histories of any length, including those that trigger depth-1024 rebalancing.", "anchors": ["wizard/splay-tree.c:AddValueToSplayTree", "wizard/splay-tree.c:GetValueFromSplayTree", "wizard/splay-tree.c:RemoveNodeFromSplayTree", "wizard/splay-tree.c:DeleteNodeFromSplayTree", "wizard/splay-tree.c:Splay"]}
{"id": "C39", "title": "Splay tree iteration is sorted and complete", "statement": "ResetSplayTreeIterator followed by GetNextKeyInSplayTree/GetNextValueInSplayTree until NULL yields every entry exactly once in ascending key order, even when GetValueFromSplayTree calls are interleaved.", "quantifier": "every tree and every interleaving of lookups", "why_tests_cant": "iteration restructures the tree at each step.", "anchors": ["wizard/splay-tree.c:ResetSplayTreeIterator", "wizard/splay-tree.c:GetNextKeyInSplayTree", "wizard/splay-tree.c:GetNextValueInSplayTree"]}
{"id": "C40", "title": "Splay tree never aborts on depth", "statement": "The fatal error after rebalancing an over-deep tree is unreachable: after BalanceSplayTree the search depth is at most log2(n)+1.", "quantifier": "every tree with fewer than 2^1024 nodes", "why_tests_cant": "needs reasoning about all shapes of trees deeper than 1024.", "anchors": ["wizard/splay-tree.c:SplaySplayTree", "wizard/splay-tree.c:BalanceSplayTree", "wizard/splay-tree.c:LinkSplayTreeNodes"]}
{"id": "C41", "title": "Hashmap is a finite map", "statement": "For any sequence of PutEntryInHashmap/GetValueFromHashmap/RemoveEntryFromHashmap, including rehashing when it grows, a hashmap behaves like a finite map under its key comparison (when equal keys hash equally).", "quantifier": "every operation history and hash function", "why_tests_cant": "collisions and growth depend on unbounded histories.", "anchors": ["wizard/hashmap.c:PutEntryInHashmap", "wizard/hashmap.c:GetValueFromHashmap", "wizard/hashmap.c:RemoveEntryFromHashmap", "wizard/hashmap.c:IncreaseHashmapCapacity"]}
{"id": "C42", "title": "Hashmap iteration visits every entry once", "statement": "ResetHashmapIterator followed by GetNextKeyInHashmap until NULL visits every entry exactly once, also when keys are looked up with GetValueFromHashmap or removed with RemoveEntryFromHashmap right after they are returned; what is left in the map is what was not removed.", "quantifier": "every map reachable by operations", "why_tests_cant": "all maps; iteration state is shared with lookups.", "anchors": ["wizard/hashmap.c:GetNextKeyInHashmap", "wizard/hashmap.c:ResetHashmapIterator", "wizard/hashmap.c:GetValueFromHashmap"]}
{"id": "C43", "title": "Hashmap entry count equals the number of distinct keys", "statement": "GetNumberOfEntriesInHashmap returns the number of keys present.", "quantifier": "every operation history", "why_tests_cant": "histories.", "anchors": ["wizard/hashmap.c:PutEntryInHashmap", "wizard/hashmap.c:GetNumberOfEntriesInHashmap", "wizard/hashmap.c:RemoveEntryFromHashmap"]}
{"id": "C44", "title": "Pointer hashing is injective", "statement": "HashPointerType maps distinct 64-bit pointers to distinct hashes, so a pointer-keyed hashmap without compare function never confuses two keys.", "quantifier": "every pair of 64-bit values", "why_tests_cant": "2^128 pairs.", "anchors": ["wizard/hashmap.c:HashPointerType"]}
{"id": "C45", "title": "Linked list operations are sequence operations", "statement": "Append, insert, remove (by index, by value, last), get by index and iteration on a LinkedListInfo act as the corresponding operations on a finite sequence, for any history within the capacity.", "quantifier": "every operation history", "why_tests_cant": "pointer surgery on head/tail/iterator for every history.", "anchors": ["wizard/hashmap.c:AppendValueToLinkedList", "wizard/hashmap.c:InsertValueInLinkedList", "wizard/hashmap.c:RemoveElementFromLinkedList", "wizard/hashmap.c:RemoveLastElementFromLinkedList", "wizard/hashmap.c:GetValueFromLinkedList"]}
{"id": "C46", "title": "Sorted insertion keeps a linked list sorted", "statement": "InsertValueInSortedLinkedList on a sorted list yields a sorted list containing the new value (replacing the first equal value when a replace pointer is given), for any comparison that is a total preorder.", "quantifier": "every sorted list, value and compare function", "why_tests_cant": "all lists.", "anchors": ["wizard/hashmap.c:InsertValueInSortedLinkedList"]}
{"id": "C47", "title": "Hex encoding round trip", "statement": "HexStringToStringInfo(StringInfoToHexString(s)) has exactly the bytes of s; the hex string has two lower-case digits per byte; decoding never depends on letter case.", "quantifier": "every byte string", "why_tests_cant": "all byte strings of all lengths.", "anchors": ["wizard/string.c:StringInfoToHexString", "wizard/string.c:HexStringToStringInfo"]}
{"id": "C48", "title": "Base64 round trip and buffer safety", "statement": "Base64Decode(Base64Encode(b)) = b with the exact length for every non-empty blob, the encoding conforms to RFC 4648, and neither function writes outside its buffer on any input, valid or not.", "quantifier": "every blob and every source string", "why_tests_cant": "all lengths and residues; malformed inputs.", "anchors": ["wizard/utility.c:Base64Encode", "wizard/utility.c:Base64Decode"]}
{"id": "C49", "title": "StringInfo operations keep contents and bounds", "statement": "Clone, Set, SetLength, SetDatum, Split, Compare on StringInfo act as the corresponding byte-string operations (copy, copy-with-zero-padding, truncate/extend, prefix split, lexicographic-then-length order) and never touch memory outside the allocation.", "quantifier": "every sequence of operations on every content", "why_tests_cant": "histories and lengths are unbounded.", "anchors": ["wizard/string.c:CloneStringInfo", "wizard/string.c:SetStringInfo", "wizard/string.c:SetStringInfoLength", "wizard/string.c:SplitStringInfo", "wizard/string.c:CompareStringInfo"]}
{"id": "C50", "title": "ConcatenateStringInfo appends", "statement": "ConcatenateStringInfo(s,t) makes s the concatenation of the bytes of s and t without writing outside s's buffer.", "quantifier": "every pair of byte strings", "why_tests_cant": "the out-of-bounds write is silent thanks to slack bytes for short inputs.", "anchors": ["wizard/string.c:ConcatenateStringInfo", "wizard/random.c:GenerateEntropicChaos"]}
{"id": "C51", "title": "Bounded string copy and concatenation", "statement": "CopyWizardString/ConcatenateWizardString never write more than the given length, always NUL-terminate for a non-zero length, store the longest fitting prefix, and return the length of the string they tried to create.", "quantifier": "every source, destination and length", "why_tests_cant": "all lengths around the truncation boundary.", "anchors": ["wizard/string.c:CopyWizardString", "wizard/string.c:ConcatenateWizardString"]}
{"id": "C52", "title": "LocaleCompare is a case-insensitive total order", "statement": "LocaleCompare/LocaleNCompare are reflexive, antisymmetric up to case and transitive, and zero exactly on strings equal up to ASCII case (so they are valid comparators for the splay tree).", "quantifier": "every pair/triple of strings", "why_tests_cant": "relational law over all triples.", "anchors": ["wizard/string.c:LocaleCompare", "wizard/string.c:LocaleNCompare"]}
{"id": "C53", "title": "Glob matching", "statement": "For patterns built from literals, '?' and '*', GlobExpression returns true exactly when the whole expression matches the pattern in the usual sense (empty pattern matches everything by convention).", "quantifier": "every pattern and every expression", "why_tests_cant": "backtracking matcher over unbounded strings.", "anchors": ["wizard/token.c:GlobExpression"]}
{"id": "C54", "title": "Substitution and stripping terminate and do what they say", "statement": "SubstituteString replaces every left-to-right non-overlapping occurrence and terminates; StripString removes exactly the leading and trailing white space and quotes.", "quantifier": "every buffer, search and replace string", "why_tests_cant": "all strings; termination.", "anchors": ["wizard/string.c:SubstituteString", "wizard/string.c:StripString"]}
{"id": "C55", "title": "Chunked file I/O transfers exactly the requested bytes", "statement": "ReadFileChunk/WriteFileChunk return success only if exactly the requested number of bytes was transferred, in order, for every pattern of short transfers and EINTR interruptions by the operating system; the 16/32/64-bit readers invert the writers.", "quantifier": "every schedule of partial reads/writes and interruptions, every value", "why_tests_cant": "OS schedules cannot be enumerated by tests.", "anchors": ["wizard/file.c:ReadFileChunk", "wizard/file.c:WriteFileChunk", "wizard/file.c:ReadFile16Bits", "wizard/file.c:ReadFile32Bits", "wizard/file.c:ReadFile64Bits", "wizard/file.c:WriteFile64Bits"]}
{"id": "C56", "title": "File lock gives mutual exclusion", "statement": "Two threads that both obtained a FileInfo for the same path from AcquireFileInfo never hold it at the same time.", "quantifier": "every interleaving of any number of threads/processes acquiring and releasing", "why_tests_cant": "schedules.", "anchors": ["wizard/file.c:AcquireFileLock", "wizard/file.c:RelinquishFileLock", "wizard/file.c:AcquireFileInfo", "wizard/file.c:DestroyFileInfo"]}
{"id": "C57", "title": "Resource limits are enforced", "statement": "With finite limits, AcquireWizardResource/RelinquishWizardResource keep memory, map, disk and file consumption below their limits, a refused request changes nothing, and acquiring then relinquishing restores the previous consumption.", "quantifier": "every history of requests", "why_tests_cant": "unbounded histories and 64-bit wrap-around.", "anchors": ["wizard/resource.c:AcquireWizardResource", "wizard/resource.c:RelinquishWizardResource", "wizard/resource.c:SetWizardResourceLimit"]}
{"id": "C58", "title": "Content files decipher to the original content", "statement": "The content file written by the encipher utility deciphers to the original plaintext for every chunk size, file length, cipher and mode, when the cipher, HMAC and entropy coder are correct.", "quantifier": "every plaintext, chunksize, mode, hmac/entropy configuration", "why_tests_cant": "boundary residues of the length modulo chunk and block size.", "anchors": ["utilities/encipher.c:EncipherContent", "utilities/decipher.c:DecipherContent"]}
{"id": "C59", "title": "Truncated or modified content is detected", "statement": "With an HMAC selected, DecipherContent reports failure if the content file was truncated or a chunk was modified (up to HMAC collisions).", "quantifier": "every truncation point and modification", "why_tests_cant": "all truncation points.", "anchors": ["utilities/decipher.c:DecipherContent"]}
{"id": "C60", "title": "Option names round trip", "statement": "ParseWizardOption(WizardOptionToMnemonic(type)) = type for every type that has a mnemonic in the table, in any letter case.", "quantifier": "every option table, every entry, every letter case", "why_tests_cant": "all letter cases; table shadowing.", "anchors": ["wizard/option.c:ParseWizardOption", "wizard/option.c:WizardOptionToMnemonic"]}
{"id": "C61", "title": "Allocation size arithmetic cannot overflow", "statement": "AcquireQuantumMemory(count,quantum) either fails or requests a block of at least count*quantum bytes as a mathematical integer.", "quantifier": "every pair of 64-bit sizes", "why_tests_cant": "2^128 pairs.", "anchors": ["wizard/memory.c:AcquireQuantumMemory", "wizard/memory.c:ResizeQuantumMemory"]}
{"id": "C62", "title": "Twofish conforms to the Twofish paper", "statement": "For every 16-, 24- or 32-byte key, EncipherTwofishBlock after SetTwofishKey is the Twofish block function of the specification (RS code, MDS matrix, q permutations, PHT, whitening).", "quantifier": "every 128/192/256-bit key, every 16-byte block", "why_tests_cant": "2^256 keys; table typos affect few inputs.", "anchors": ["wizard/twofish.c:SetTwofishKey", "wizard/twofish.c:EncipherTwofishBlock"]}
{"id": "C63", "title": "Serpent conforms to the Serpent specification", "statement": "The first 16 bytes of a block become their Serpent encryption (bitslice description with the S-box tables of the paper, linear transformation and key schedule), for every key, whatever the uninitialised scratch register holds.", "quantifier": "every key of every length, every block, every value of the uninitialised local", "why_tests_cant": "key space; hand-optimised S-box circuits are only right if right on every column.", "anchors": ["wizard/serpent.c:SetSerpentKey", "wizard/serpent.c:EncipherSerpentBlock"]}
{"id": "C64", "title": "Reading a whole file from a pipe stays inside the buffer", "statement": "In the non-seekable branch of FileToBlob every read is given a region that lies inside the allocated blob, whatever sizes the successive reads return.", "quantifier": "every sequence of read results", "why_tests_cant": "short reads followed by long ones depend on pipe timing.", "anchors": ["wizard/blob.c:FileToBlob"]}
{"id": "C65", "title": "The message length recorded by the hashes is exact", "statement": "After any UpdateHash calls the two length counters of the SHA-1/SHA-2 objects hold the number of message bits, whatever the sizes of the updates.", "quantifier": "every sequence of updates of every size below 2^61 bytes", "why_tests_cant": "updates of 4 GiB and more are never tested.", "anchors": ["wizard/sha2256.c:UpdateSHA2256", "wizard/sha2512.c:UpdateSHA2512", "wizard/sha1.c:UpdateSHA1"]}
{"id": "C66", "title": "Destroying or resetting a splay-tree frees every node exactly once", "statement": "The loop of DestroySplayTree and ResetSplayTree, which threads the pending nodes through their key fields, ends and relinquishes each node of the tree once and no other.", "quantifier": "every tree of every shape and size", "why_tests_cant": "leaks and double frees show only on some shapes.", "anchors": ["wizard/splay-tree.c:DestroySplayTree", "wizard/splay-tree.c:ResetSplayTree"]}
{"id": "C67", "title": "A cloned splay-tree has the same contents", "statement": "CloneSplayTree returns a tree whose bindings are the clones of the bindings of the original, leaves the bindings and the iterator of the original alone, and any later history on the clone behaves like a finite map started from those bindings.", "quantifier": "every history before and after, every clone method that keeps the order", "why_tests_cant": "the original is rotated while it is being read.", "anchors": ["wizard/splay-tree.c:CloneSplayTree"]}
{"id": "C68", "title": "Chunked reads and writes return", "statement": "ReadFileChunk, WriteFileChunk and ReadBlobChunk return after finitely many system calls once the end of the file is reached or an error occurs, whether or not an earlier call was interrupted.", "quantifier": "every file, every request, every schedule of partial transfers and interruptions", "why_tests_cant": "a signal has to arrive at the right moment; errno is only read after a zero count.", "anchors": ["wizard/file.c:ReadFileChunk", "wizard/file.c:WriteFileChunk", "wizard/blob.c:ReadBlobChunk"]}
{"id": "C69", "title": "Bytes gathered from the random device are part of the entropy", "statement": "The 64 bytes GenerateEntropicChaos reads from /dev/urandom (or from getentropy) influence the entropy it returns.", "quantifier": "every set of chunks gathered, every value of the device bytes", "why_tests_cant": "the result looks random either way.", "anchors": ["wizard/random.c:GenerateEntropicChaos", "wizard/string.c:ConcatenateStringInfo"]}
{"id": "C70", "title": "A reservoir that was read can be saved and read again", "statement": "After GetEntropyFromReservoir has accepted a file of any protocol version, SaveEntropyToReservoir leaves a file that GetEntropyFromReservoir accepts.", "quantifier": "every accepted file, version 1.0 included, every timestamp", "why_tests_cant": "needs a file of the older version.", "anchors": ["wizard/random.c:GetEntropyFromReservoir", "wizard/random.c:SaveEntropyToReservoir"]}
{"id": "C71", "title": "A keyring entry of protocol 1.0 can be imported again", "statement": "A KeyringInfo that was filled by ExportKeyringKey, whatever the protocol version of the entry, can be given another id and imported, and is then exported under that id.", "quantifier": "every keyring, every entry, every timestamp", "why_tests_cant": "needs a keyring written by the older version.", "anchors": ["wizard/keyring.c:ImportKeyringKey", "wizard/keyring.c:ExportKeyringKey"]}
{"id": "C72", "title": "A secret key's record carries the time it was generated", "statement": "The keyring record that GenerateSecretKey writes has the current protocol version and the time of its generation, not those of another record.", "quantifier": "every keyring content, every time", "why_tests_cant": "the record is written after a scan that overwrites the structure; visible only in a keyring with earlier records.", "anchors": ["wizard/secret.c:GenerateSecretKey", "wizard/keyring.c:ExportKeyringKey"]}
{"id": "C73", "title": "Session keys are enciphered with distinct keystreams", "statement": "Two keys stored in one KeyInfo are not enciphered with the same keystream: the stored strings do not determine the difference of the keys.", "quantifier": "every session key, nonce, pair of ids and keys", "why_tests_cant": "the map returns the right keys; only a relation between stored ciphertexts shows the reuse.", "anchors": ["wizard/key.c:SetKeyInfo", "wizard/key.c:AcquireKeyInfo"]}
{"id": "C74", "title": "Glob classes, escapes and alternatives", "statement": "GlobExpression gives the usual meaning to character classes [abc] and [a-z], to escaped characters and to alternatives {a,b}: it returns true exactly when the whole expression matches.", "quantifier": "every such pattern and every expression", "why_tests_cant": "the pattern language is infinite.", "anchors": ["wizard/token.c:GlobExpression"]}
{"id": "C75", "title": "Glob matching stays in its strings", "statement": "GlobExpression reads no byte past the terminating zero of the pattern or of the expression.", "quantifier": "every pattern, well formed or not, and every expression", "why_tests_cant": "malformed patterns; reading past the end is rarely visible.", "anchors": ["wizard/token.c:GlobExpression"]}
{"id": "C76", "title": "Virtual memory keeps the resource books balanced", "statement": "AcquireVirtualMemory charges the length to the counters of the kind of memory it obtained and to no other, a refused request leaves the counters alone, and RelinquishVirtualMemory gives exactly the charge back.", "quantifier": "every count, quantum, counter state, limit and sequence of system answers", "why_tests_cant": "The fall-back paths need exhausted memory, failing mappings and limits in force at the same time.", "anchors": ["wizard/memory.c:AcquireVirtualMemory", "wizard/memory.c:RelinquishVirtualMemory"]}
{"id": "C77", "title": "The signature module computes SHA-256", "statement": "GetSignatureInfo, UpdateSignature on any sequence of strings and FinalizeSignature leave the SHA-256 digest of the concatenation in the digest string.", "quantifier": "every sequence of strings of total length below 2^61 bytes, both byte orders", "why_tests_cant": "the words are 64-bit registers truncated by hand; a missing truncation shows only for particular carries, and the length counter only for very long inputs.", "anchors": ["wizard/signature.c:83-393"]}
{"id": "C78", "title": "A mapped blob reads like the file", "statement": "ReadBlob, ReadBlobChunk, ReadBlobByte, EOFBlob and TellBlob give the same answers whether OpenBlob mapped the file or opened it with stdio: those of a cursor in the bytes of the file, and every access stays inside the mapping.", "quantifier": "every file content, every sequence of calls with any sizes, no EINTR left in errno (see C68)", "why_tests_cant": "which path is taken depends on the size of the file and on resource limits; the difference, if any, shows at the end of the file.", "anchors": ["wizard/blob.c:ReadBlob", "wizard/blob.c:ReadBlobChunk", "wizard/blob.c:ReadBlobByte", "wizard/blob.c:EOFBlob", "wizard/blob.c:TellBlob", "wizard/blob.c:OpenBlob"]}
{"id": "C79", "title": "Blob writes stay in the buffer and store the bytes", "statement": "A sequence of WriteBlob, WriteBlobByte and WriteBlobString calls on a blob in memory stays inside its buffer, and leaves the written bytes followed by the part of the old content they did not cover; a blob opened for reading refuses writes.", "quantifier": "every content, every sequence of writes of any sizes, mapped or allocated", "why_tests_cant": "the buffer grows by a doubling quantum; the boundary cases depend on the history.", "anchors": ["wizard/blob.c:WriteBlob", "wizard/blob.c:WriteBlobStream", "wizard/blob.c:SetBlobExtent"]}
{"id": "C80", "title": "SetBlobExtent keeps content and position", "statement": "SetBlobExtent makes the file or buffer as long as the extent, filling with zeros, and changes neither the bytes already there nor the position.", "quantifier": "every content, position and extent", "why_tests_cant": "the effect is one byte.", "anchors": ["wizard/blob.c:SetBlobExtent"]}
{"id": "C81", "title": "CloseBlob reports lost bytes", "statement": "When CloseBlob returns true, every byte given to the stream has reached the file.", "quantifier": "every buffered content, every sequence of answers of the system", "why_tests_cant": "needs a full disk at the very last write.", "anchors": ["wizard/blob.c:CloseBlob", "wizard/blob.c:SyncBlob"]}
{"id": "C82", "title": "The attributes before enciphered content are read back", "statement": "When EncipherContent has written the packet of attributes (the digest and length line, the RDF text, the closing line) before the chunks, GetContentInfo accepts the file, acts on exactly the elements of the RDF text in their order, and leaves the stream at the first byte of the first chunk.", "quantifier": "for every RDF text without NUL shorter than 2^32 bytes whose tree has only cipher: elements, every hexadecimal digest, every content that follows and every buffer size of at least 132 bytes", "why_tests_cant": "Whether the hand-written scanner finds both attributes depends on each byte of digest, length and text; the offset of the first chunk must be right for every content, including content that looks like a header.", "anchors": ["utilities/content.c:190-600", "utilities/encipher.c:780-811"]}
{"id": "C83", "title": "Reading attributes and digest files comes to an end", "statement": "On any file GetContentInfo and AuthenticateDigest return: they accept or reject the file after a number of steps bounded by its length.", "quantifier": "for every byte string as the file", "why_tests_cant": "A hang shows only on the files that provoke it; that no file does is a statement about all byte strings.", "anchors": ["utilities/content.c:236-335", "utilities/content.c:390-398", "utilities/digest.c:270-489"]}
{"id": "C84", "title": "Reading attributes and digest files stays inside the buffers", "statement": "Whatever the file contains, the readers of attributes and of digest files write only inside the key buffer of WizardPathExtent bytes and the value buffer they have allocated.", "quantifier": "for every byte string as the file and every buffer size", "why_tests_cant": "The off-by-one needs a key of exactly the buffer's size or more; the value buffer is regrown during the scan, so every length and every position of the growth must be right.", "anchors": ["utilities/content.c:240-333", "utilities/digest.c:274-485"]}
{"id": "C85", "title": "The attributes of enciphered content are authentic", "statement": "Attributes that were not written by the holder of the key (another mode, nonce, authentication method) are rejected.", "quantifier": "for every enciphered file and every replacement of its attributes", "why_tests_cant": "A test tries some replacements; that none is accepted, or that every well-formed one is, is a statement about all of them.", "anchors": ["utilities/content.c:345-362", "utilities/encipher.c:780-811"]}
{"id": "C86", "title": "A digest file tells which files have changed", "statement": "Checking a digest file written by DigestCommand reports exactly the listed files whose content no longer has the recorded digest, and files that are gone, and the status says whether there were any.", "quantifier": "for all lists of files and names, all contents then and now, all hashes", "why_tests_cant": "Names and contents are arbitrary; a name that the scanner splits silently drops a file from the check.", "anchors": ["utilities/digest.c:117-509", "utilities/digest.c:584-790"]}
{"id": "C87", "title": "Escaped XML text is read back unchanged", "statement": "CanonicalXMLContent turns a Latin-1 text into markup-free UTF-8 XML; ParseEntities turns it back into the UTF-8 form of exactly the same characters, as element content and (escaped pedantically) as attribute value.", "quantifier": "for every text of Latin-1 characters XML 1.0 allows, of any length, both escape modes", "why_tests_cant": "Escapes, line-end and white-space normalisation and the two-step expansion of &lt; through &#60; interact; every combination of neighbouring characters matters.", "anchors": ["wizard/xml-tree.c:1394-1571", "wizard/xml-tree.c:296-450"]}
{"id": "C88", "title": "Character references stand for their code point", "statement": "A decimal or hexadecimal character reference is replaced by the UTF-8 form of the character it names and nothing else changes; a reference that names no character is not accepted.", "quantifier": "for every numeral in either notation with any number of leading zeros, and all text around it", "why_tests_cant": "There are 1.1 million code points and unboundedly many numerals; the in-place rewrite needs the encoded form never to be longer than the reference.", "anchors": ["wizard/xml-tree.c:1440-1480"]}
{"id": "C89", "title": "Entity expansion ends and stays in its buffer", "statement": "With any table of entities that ValidateEntities has let through, ParseEntities returns on any text, after a number of steps linear in the text, without reading or writing outside its buffer.", "quantifier": "for every sequence of accepted declarations, every text and both kinds of state", "why_tests_cant": "Exponential or endless expansion depends on the whole table; a test can only try some tables.", "anchors": ["wizard/xml-tree.c:1394-1571", "wizard/xml-tree.c:1612-1640", "wizard/xml-tree.c:1755-1810"]}
{"id": "C90", "title": "A declared entity stands for its value", "statement": "ValidateEntities accepts every value that does not lead back to its own entity, and a reference to a declared entity is replaced by the value while the text around it stays.", "quantifier": "for all tables, names, values and surrounding texts", "why_tests_cant": "Whether a value is wrongly rejected or text is lost depends on the lengths of name and value and on every byte of the value.", "anchors": ["wizard/xml-tree.c:1488-1535", "wizard/xml-tree.c:1612-1640"]}
{"id": "C91", "title": "An XML tree that is written and read again is the same tree", "statement": "NewXMLTree applied to the text XMLTreeInfoToXML writes for a tree gives the same tree: tags, attributes with their values and order, content, children with their order and position in the content, and no warning.", "quantifier": "for every tree of any depth and breadth with XML names, values and content", "why_tests_cant": "Trees are unbounded; writer and reader each handle positions of children in the content, escapes and empty elements separately.", "anchors": ["wizard/xml-tree.c:1988-2370", "wizard/xml-tree.c:2684-2893", "wizard/xml-tree.c:1580-1610"]}
{"id": "C92", "title": "The XML reader returns on every document", "statement": "NewXMLTree comes to an end, with a tree or a report, and does not read outside its copy of the text, however malformed the document is.", "quantifier": "for every NUL-free byte string that is not UTF-16, up to its first DOCTYPE if it has one", "why_tests_cant": "Malformed documents are unbounded in kind; each unclosed construct makes a scanner run towards the end of the text.", "anchors": ["wizard/xml-tree.c:1988-2370"]}
{"id": "C93", "title": "A tree that was read can be written", "statement": "XMLTreeInfoToXML writes every tree NewXMLTree returns, and every element of it, without undefined behaviour.", "quantifier": "for every tree and every element", "why_tests_cant": "It fails only for attributes without value and for elements at positions beyond the slack of a string, which ordinary tests do not have.", "anchors": ["wizard/xml-tree.c:2651-2683", "wizard/xml-tree.c:2684-2788", "wizard/xml-tree.c:2850-2893"]}
{"id": "C94", "title": "The children of a parsed element are found by tag and in document order", "statement": "When children are added one behind the other, as the parser does, GetXMLTreeOrdered visits all of them in document order, GetXMLTreeSibling the first of each tag, GetXMLTreeChild finds the first with a tag and GetNextXMLTreeTag the others with that tag, in order; no NULL pointer is followed and every loop ends.", "quantifier": "for every number of children, every tag and all non-decreasing offsets", "why_tests_cant": "Three lists are threaded through the same cells; a wrong link shows only for particular orders of tags.", "anchors": ["wizard/xml-tree.c:164-186", "wizard/xml-tree.c:1220-1285", "wizard/xml-tree.c:927-942", "wizard/xml-tree.c:778-785"]}
{"id": "C95", "title": "Inserting and pruning elements keeps the children findable", "statement": "After any history of AddChildToXMLTree, InsertTagIntoXMLTree and PruneTagFromXMLTree on an element, the same functions find exactly the children that are left, by tag and in order of their offsets.", "quantifier": "for every history of insertions at any offset and prunings", "why_tests_cant": "Each call relinks up to three lists; the damage of one call may show only after later calls.", "anchors": ["wizard/xml-tree.c:1220-1285", "wizard/xml-tree.c:2450-2493", "wizard/xml-tree.c:927-942"]}
{"id": "C96", "title": "Deciphering uses the settings the content was enciphered with", "statement": "The cipher, mode, nonce, authentication method, key id, key hash and length, entropy coder and level, HMAC, chunk size, times and version that EncipherContent writes are exactly what GetContentInfo finds, whatever the settings were before, and reading stops where the chunks begin.", "quantifier": "for all settings the options allow, all previous settings, all chunks", "why_tests_cant": "Writer and reader meet only in a text: an element the XML reader treats differently, or a number read with another width, shows up for particular values only.", "anchors": ["utilities/encipher.c:700-811", "utilities/content.c:190-597", "wizard/xml-tree.c:1988-2370", "wizard/option.c:430-549"]}
{"id": "C97", "title": "Content can be deciphered whatever its file was called", "statement": "A file that was enciphered can be deciphered again for every file name.", "quantifier": "for every path", "why_tests_cant": "Depends on single characters in the path that test files do not have.", "anchors": ["utilities/encipher.c:707-709", "wizard/xml-tree.c:2088-2153", "utilities/content.c:370-389"]}
{"id": "C98", "title": "Line ends of all three kinds are read alike", "statement": "A text whose lines end with CR, LF or CR LF, in any mixture, is read by the XML reader exactly as the same text with LF ends, whatever entities it refers to.", "quantifier": "for all lists of lines and line ends", "why_tests_cant": "A mistake shows only where two particular ends meet, such as CR before CR LF.", "anchors": ["wizard/xml-tree.c:1417-1428"]}
{"id": "C99", "title": "Blocks of the embeddable allocator do not overlap and keep their bytes", "statement": "After any sequence of AcquireWizardMemory, ResizeWizardMemory, RelinquishWizardMemory calls and stores into live blocks, the live blocks are aligned to 16, pairwise disjoint for the sizes asked for, inside memory the system gave, and every byte stored is still there; ResizeWizardMemory carries over the common prefix.", "quantifier": "for all sequences of calls, sizes, segment addresses and stored bytes", "why_tests_cant": "Corruption needs a particular order of splits, joins and growths.", "anchors": ["wizard/memory.c:319-440", "wizard/memory.c:586-630", "wizard/memory.c:795-844", "wizard/memory.c:1039-1082", "wizard/memory.c:1156-1205"]}
{"id": "C100", "title": "The embeddable allocator stays within its segments and fails no assertion", "statement": "Every legal call returns, reads and writes only inside mapped segments and fails no assertion; a block is refused only if the system refuses a segment or the size is one ExpandHeap does not serve.", "quantifier": "for all states reachable by legal calls and all next calls", "why_tests_cant": "A stray header access shows only as a crash much later.", "anchors": ["wizard/memory.c:319-440", "wizard/memory.c:586-630", "wizard/memory.c:795-844", "wizard/memory.c:1039-1082", "wizard/memory.c:1156-1205"]}
{"id": "C101", "title": "Segments are tiled by blocks and everything given back is joined", "statement": "In every reachable state the headers divide each segment into blocks without gaps, each free or live, no two neighbours free; when nothing is live, each segment is a single free block.", "quantifier": "for all states reachable by legal calls", "why_tests_cant": "A block that is not joined is only a slow leak.", "anchors": ["wizard/memory.c:1039-1082", "wizard/memory.c:347-388"]}
{"id": "C102", "title": "AcquireWizardMemory takes the smallest free block that fits", "statement": "The block returned is cut from a free block that is smallest among those large enough, and a new segment is asked for only if no free block is large enough.", "quantifier": "for all reachable states and sizes", "why_tests_cant": "Any fitting block passes a test of the result.", "anchors": ["wizard/memory.c:319-345", "wizard/memory.c:390-440"]}
{"id": "C103", "title": "A block has at least the size asked for", "statement": "AcquireWizardMemory returns NULL or a block of at least the requested size; a request for which a new segment was obtained succeeds.", "quantifier": "for all sizes of type size_t", "why_tests_cant": "Only sizes near 2^64 and just below multiples of the segment size matter.", "anchors": ["wizard/memory.c:399-401", "wizard/memory.c:806-807", "wizard/memory.c:1192-1197"]}
{"id": "C104", "title": "Free blocks are not forgotten", "statement": "As long as a free block fits, a request is served even if the system refuses memory.", "quantifier": "for all reachable states, with any number of segments", "why_tests_cant": "Needs 1024 segments.", "anchors": ["wizard/memory.c:596-616", "wizard/memory.c:812-817"]}
{"id": "C105", "title": "FormatWizardTime writes the instant it is given", "statement": "The text FormatWizardTime writes, read as an RFC 3339 timestamp, denotes the given time: date and clock are those of the local zone, and the offset printed is the one in force.", "quantifier": "for all times whose local year is 0 to 9999 and all zones up to 23 hours off", "why_tests_cant": "Tests run in one zone, and most days are not the last of the year.", "anchors": ["wizard/string.c:1105-1151"]}
{"id": "C106", "title": "ParseWizardTime reads back what FormatWizardTime wrote", "statement": "ParseWizardTime consumes the whole text and returns the time it was written for, so that decipher restores the dates of the file.", "quantifier": "for all times whose local year is 0 to 9999, all zones and all moments of reading", "why_tests_cant": "Needs zones on both sides of Greenwich and dates on both sides of the change to summer time.", "anchors": ["wizard/utility.c:951-1017", "wizard/string.c:1105-1151", "utilities/content.c:422", "utilities/content.c:510", "utilities/decipher.c:810-811"]}
{"id": "C107", "title": "The components of a path are the pieces between the slashes", "statement": "GetPathComponents returns the one list of slash-free names that, joined by slashes, gives the path back.", "quantifier": "for all paths", "why_tests_cant": "The list must be right for any number and position of slashes.", "anchors": ["wizard/utility.c:576-620"]}
{"id": "C108", "title": "Head and tail of a path are directory and file name", "statement": "GetPathComponent with HeadPath returns what stands in front of the last slash and with TailPath what stands behind it, joined they denote the same file; ChopPathComponents removes as many components as asked.", "quantifier": "for all paths that name no file system and no subnode", "why_tests_cant": "The root directory and nested names have to be tried separately.", "anchors": ["wizard/utility.c:378-385", "wizard/utility.c:415-562"]}
{"id": "C109", "title": "Root, base and extension split a file name, and AppendFileExtension replaces the extension", "statement": "RootPath and ExtensionPath are what stands in front of and behind the last dot of the file name, BasePath is the file name without its extension, AppendFileExtension gives the root with the new extension.", "quantifier": "for all paths and extensions", "why_tests_cant": "Dots occur in directories and in front of hidden files as well.", "anchors": ["wizard/utility.c:94-108", "wizard/utility.c:415-562"]}
{"id": "C110", "title": "A file system in front and a subnode behind a path are split off", "statement": "SubnodePath is the text in the trailing brackets and FilesystemPath the text in front of the colon; the rest is returned as the canonical path, and no byte outside the buffer is touched.", "quantifier": "for all paths, file systems and subnodes that fit the buffer", "why_tests_cant": "Needs paths of more than half the buffer, or paths made of a subnode alone.", "anchors": ["wizard/utility.c:415-562"]}
{"id": "C111", "title": "StringToArgv splits a line into its arguments", "statement": "Arguments are separated by white space; an argument that starts with a single or double quote extends to the next such quote and loses both, what follows it up to the next blank is dropped; every text has exactly one list of arguments.", "quantifier": "for all texts", "why_tests_cant": "Quotes may open at the start or inside of an argument, and close at the end of the text or not at all.", "anchors": ["wizard/string.c:2100-2178"]}
{"id": "C112", "title": "GetNextToken returns quoted texts, words and addresses", "statement": "A text in quotes or braces comes back without them and without its escapes, a word ends in front of a separator, the body of url(...) comes back without its wrapping; the scan stops behind the token and the white space that follows.", "quantifier": "for all texts shorter than the buffer and all white space around them", "why_tests_cant": "Escaped quotes and backslashes combine in any order.", "anchors": ["wizard/token.c:103-229"]}
{"id": "C113", "title": "GetNextToken stays within its buffers and makes progress", "statement": "The token with its NUL fits the buffer given, nothing outside text and token is touched, and something is consumed whenever there is something that is not blank.", "quantifier": "for all texts and buffer sizes", "why_tests_cant": "Depends on every position of brackets and quotes and on the size of the buffer.", "anchors": ["wizard/token.c:103-229"]}
{"id": "C114", "title": "GetMimeInfo finds the entry of least priority that describes the file", "statement": "The answer is the last of the entries with the least priority among those that describe the file, by name if there is a pattern and a name, else by a string near the offset or a number at it; there is none if no entry describes it.", "quantifier": "for all caches, file names and contents", "why_tests_cant": "Depends on the order and the priorities of all entries.", "anchors": ["wizard/mime.c:225-381"]}
{"id": "C115", "title": "The text of a magic is read as C escapes", "statement": "Escapes stand for the bytes C gives them, every sequence of bytes can be written and is read back, the result fits the copy of the text and nothing beyond the text is read.", "quantifier": "for all texts and all sequences of bytes", "why_tests_cant": "Needs every combination of an escape and what follows it.", "anchors": ["wizard/mime.c:829-872"]}
{"id": "C116", "title": "A locale file puts each message under the names of its groups", "statement": "Loading the printed form of nested groups of messages adds exactly the entries path/name/ with their texts, in any file whose messages are in groups and whose names and texts have no slash; text, names and blanks are otherwise free.", "quantifier": "for all forests of groups, names, texts, blanks between the tags and caches", "why_tests_cant": "The tag is one buffer that is extended and chopped at every element, so an error appears only later, in another group.", "anchors": ["wizard/locale.c:1104-1380"]}
{"id": "C117", "title": "GetLocaleMessage returns the text of the message or the tag", "statement": "After loading, the tag of each message gives its text, the last one if there are several, and any other tag is returned itself.", "quantifier": "for all forests of groups and tags", "why_tests_cant": "Needs every tag, also those that are not in the file.", "anchors": ["wizard/locale.c:739-761"]}
{"id": "C118", "title": "The list of exceptions holds what was thrown but for repetitions", "statement": "After any throws the list holds the first of each run of alike exceptions, in order: every thrown exception has an alike one in the list, nothing else is in it, and neighbours are not alike; inheriting is throwing what the relative holds.", "quantifier": "for all sequences of exceptions thrown and inherited", "why_tests_cant": "Depends on the whole history of throws.", "anchors": ["wizard/exception.c:920-959", "wizard/exception.c:659-682"]}
{"id": "C119", "title": "The fields of an exception are those of the last one thrown", "statement": "After a throw the severity is that of the exception thrown, and reason and description are the same up to the case of letters.", "quantifier": "for all sequences of exceptions", "why_tests_cant": "Depends on the whole history of throws.", "anchors": ["wizard/exception.c:920-959", "wizard/exception.c:627-632"]}
{"id": "C120", "title": "CatchException hands each exception to the handler of its class", "statement": "Every exception of the list goes to the warning, the error or the fatal handler by its severity, once and in order, and the list is empty afterwards.", "quantifier": "for all sequences of exceptions", "why_tests_cant": "Needs every mixture of severities and every order.", "anchors": ["wizard/exception.c:226-252", "wizard/exception.c:323-335"]}
{"id": "C121", "title": "Exceptions are logged and named by their severity", "statement": "An exception is logged as an error if it is one, and the tags of the severities are distinct and not empty.", "quantifier": "for all exceptions and histories", "why_tests_cant": "Needs every severity after every other.", "anchors": ["wizard/exception.c:997-1027", "wizard/exception.c:517-579"]}
{"id": "C122", "title": "A stopwatch shows the time of the runs that count", "statement": "The time shown is the sum of the runs since the last reset, where continuing extends the last run from its start, plus one epsilon for each stop; looking again shows the same time.", "quantifier": "for all sequences of operations and clock readings", "why_tests_cant": "Depends on the whole history of operations.", "anchors": ["wizard/timer.c:138-152", "wizard/timer.c:244-253", "wizard/timer.c:345-352", "wizard/timer.c:380-399", "wizard/timer.c:423-437"]}
{"id": "C123", "title": "The pass-phrase is the line that was typed twice", "statement": "After any number of attempts that differ, a line shorter than the buffer that is typed twice is the pass-phrase; what is read never exceeds the buffer; a phrase that is returned was read twice.", "quantifier": "for all lines, attempts and inputs", "why_tests_cant": "Needs inputs of every length and terminals that fail.", "anchors": ["wizard/passphrase.c:126-270", "wizard/passphrase.c:294-335"]}
{"id": "C124", "title": "What is compressed is restored", "statement": "For each coding, if the library restores its own streams and keeps its bound, the message is restored in a destination with room for it, never more is returned than asked for, and for zip and bzip2 a destination that is too small is an error.", "quantifier": "for all messages, destinations and libraries that keep their promises", "why_tests_cant": "Needs messages near and above the 32 bit limits.", "anchors": ["wizard/zip.c:210-339", "wizard/bzip.c:217-344", "wizard/lzma.c:213-374", "wizard/entropy.c:283-409"]}
{"id": "C125", "title": "Messages that cannot be coded as a whole are rejected", "statement": "A message longer than the library takes, a destination that is too small and a stream that was cut are errors.", "quantifier": "for all messages, destinations and streams", "why_tests_cant": "Needs messages of more than 4 GiB and streams cut anywhere.", "anchors": ["wizard/zip.c:236-240", "wizard/lzma.c:354-368"]}
{"id": "C126", "title": "Events are written as the format says, within the buffer", "statement": "For each format made of plain bytes, escapes and percent letters the text of an event and the name of the log file are the values of the pieces one after the other; no format leads outside of the buffer if what the letters stand for is shorter than WizardPathExtent.", "quantifier": "for all formats and all values of the letters", "why_tests_cant": "The buffer grows along the format; needs formats of every length.", "anchors": ["wizard/log.c:995-1159", "wizard/log.c:1184-1262"]}
{"id": "C127", "title": "The time of an event is right to half a millisecond", "statement": "Minutes, seconds and thousandths of the letter r are the time rounded to milliseconds, seconds below 60 and thousandths below 1000.", "quantifier": "for all times", "why_tests_cant": "Only the last half millisecond of each second differs.", "anchors": ["wizard/log.c:1127-1132"]}
{"id": "C128", "title": "Every event is kept in one of the log files", "statement": "Each event logged is in a file below the number of generations as a record of its own, files are only appended to, their sizes are bounded by the limit, and the events can be read back from the records.", "quantifier": "for all limits, generations and sequences of events", "why_tests_cant": "Depends on the whole history of events and on files larger than the limit.", "anchors": ["wizard/log.c:1330-1373", "wizard/log.c:1618-1623"]}
{"id": "C129", "title": "A list of handlers names all of them", "statement": "Names of handlers in any case with blanks and commas between them are parsed as the union of these handlers.", "quantifier": "for all lists of names", "why_tests_cant": "Needs every list.", "anchors": ["wizard/log.c:1672-1705", "wizard/log.c:144-155"]}
{"id": "C130", "title": "A temporary file is in the directory asked for", "statement": "The name of the file is the directory, wizard-, the process and twelve characters drawn at random.", "quantifier": "for all directories and all random bytes", "why_tests_cant": "Needs directories of every length and kind.", "anchors": ["wizard/resource.c:188-248", "wizard/resource.c:290-335"]}
{"id": "C131", "title": "A temporary file is new and the only change", "statement": "If a file is acquired there was none of that name, there is one now, and no other file has changed; if none is acquired nothing has changed.", "quantifier": "for all states of the file system and all random bytes", "why_tests_cant": "Names that differ only in case are too rare to be drawn in a test.", "anchors": ["wizard/resource.c:250-352", "wizard/splay-tree.c:152-218"]}
{"id": "C132", "title": "Relinquishing a temporary file removes it if asked to", "statement": "The file is no longer registered, it is removed if and only if it is to be trashed, the result tells whether it was, and no other file changes.", "quantifier": "for all states", "why_tests_cant": "Depends on the files acquired before.", "anchors": ["wizard/resource.c:843-869", "wizard/splay-tree.c:599-654"]}
{"id": "C133", "title": "No temporary file is left at the end", "statement": "After any history of acquiring and relinquishing files the component is left without a file that was not there before, and files that were relinquished can be acquired again.", "quantifier": "for all histories", "why_tests_cant": "Depends on the whole history.", "anchors": ["wizard/resource.c:983-995", "wizard/resource.c:336-352"]}
{"id": "C134", "title": "A document in UTF-16 is read as its characters", "statement": "ConvertUTF16ToUTF8 turns the UTF-16 form of any characters, in either byte order, into their UTF-8 form, writes only into its block, keeps texts without a byte order mark, and refuses what is not UTF-16.", "quantifier": "for all texts and both byte orders", "why_tests_cant": "Needs every character, also those in two units, and a checker for the byte behind the block.", "anchors": ["wizard/xml-tree.c:1313-1391", "wizard/xml-tree.c:2030-2031"]}
{"id": "C135", "title": "Attributes can be set, changed, removed and looked up", "statement": "After setting an attribute it has the value and the others are as before; removing takes away that one; looking up finds the attribute of the tag and otherwise the default of the document type.", "quantifier": "for all lists of attributes, tags and values", "why_tests_cant": "A slot never written often happens to hold zero in a test.", "anchors": ["wizard/xml-tree.c:2523-2582", "wizard/xml-tree.c:811-852", "wizard/xml-tree.c:2088-2150"]}
{"id": "C136", "title": "Configuration files are searched in every directory asked for, in order", "statement": "GetConfigureOptions reads the file of the given name from each directory of WIZARD_CONFIGURE_PATH, in its order and before all others, and from the directories of XDG_CONFIG_HOME and HOME.", "quantifier": "for all lists of directories, names and file systems", "why_tests_cant": "Needs directories of every length and the environment variables of each system.", "anchors": ["wizard/configure.c:594-656", "wizard/configure.c:677-880"]}
{"id": "C137", "title": "Loading a configuration file stores its elements and those of the files it includes", "statement": "LoadConfigureCache appends exactly the elements of the files reached by at most 201 includes, each with the name of its file, those of a file behind those of its includes; includes are looked up in the directory of the file that has them or, with an absolute name, there; loading ends.", "quantifier": "for all file systems and all chains of includes", "why_tests_cant": "Circular and deeply nested includes are not in a test suite.", "anchors": ["wizard/configure.c:1064-1160", "wizard/mime.c:837-850", "wizard/log.c:1503-1525"]}
{"id": "C138", "title": "A configuration value is found by its name whatever was looked up before", "statement": "GetConfigureInfo finds the first entry with the name, ignoring case; since it moves the entry to the front the answer stays the same after any history of lookups.", "quantifier": "for all caches, names and histories", "why_tests_cant": "Depends on the history of lookups.", "anchors": ["wizard/configure.c:333-367"]}
{"id": "C139", "title": "Lists of entries are complete, sorted and fit their block", "statement": "GetConfigureInfoList, GetConfigureList and GetMimeList return the entries that are not hidden and whose names match the pattern, each as often as it is stored, in order, and never more than there is room for.", "quantifier": "for all caches, patterns and sort routines", "why_tests_cant": "Whether the order is right by chance depends on addresses.", "anchors": ["wizard/configure.c:400-459", "wizard/configure.c:492-548", "wizard/mime.c:521-577"]}
{"id": "C140", "title": "A cache is loaded once whatever the threads do", "statement": "Any number of threads that ask for a cache at the same time acquire one semaphore and load one cache; a thread that returns finds it loaded; never two are inside the mutex or the semaphore; some thread can always go on, and none takes more than fourteen steps.", "quantifier": "for all numbers of threads and all interleavings of their steps, by an invariant", "why_tests_cant": "Races show up in a few of astronomically many interleavings.", "anchors": ["wizard/semaphore.c:247-258", "wizard/semaphore-private.h:40-110", "wizard/configure.c:938-950", "wizard/log.c:655-667", "wizard/mime.c:662-674", "wizard/locale.c:903-938"]}
{"id": "C141", "title": "A semaphore has one holder, and wrong use is noticed", "statement": "Lock and unlock in turn never fail; a second thread waits; unlocking what another thread locked, or twice, is noticed; a thread that locks what it holds is told so.", "quantifier": "for all histories of locks and unlocks", "why_tests_cant": "A test of a recursive lock would hang.", "anchors": ["wizard/semaphore.c:281-317", "wizard/semaphore.c:437-469"]}
{"id": "C142", "title": "What is started is ended", "statement": "Whatever is called in whatever order, a component has one semaphore at most and gives it back at most once; starting or ending twice is like once; after the end nothing is left; temporary files can be asked for at any time.", "quantifier": "for all histories of starts, ends, uses of components and temporary files", "why_tests_cant": "Leaks at the end of a process are not observed by tests.", "anchors": ["wizard/wizard.c:205-350", "wizard/configure.c:211-267", "wizard/resource.c:283-355", "wizard/resource.c:983-992", "wizard/log.c:824-891"]}
{"id": "C143", "title": "Starting the library handles signals nobody handles and keeps the others", "statement": "Nine signals get the handler of the library if they have their default action; other actions and other signals stay as they are.", "quantifier": "for all processes, actions and signals", "why_tests_cant": "Needs programs with handlers of every kind.", "anchors": ["wizard/wizard.c:116-205", "wizard/wizard.c:264-304"]}
{"id": "C144", "title": "A signal ends the process as it would without the library, but for temporary files", "statement": "A signal of the nine with its default action removes the temporary files and ends the process, which its parent sees as ended by the signal; one with a handler of the program calls that.", "quantifier": "for all processes, signals and both variants of the handler", "why_tests_cant": "Killing the test process is not tested.", "anchors": ["wizard/wizard.c:152-188", "configure.ac"]}
{"id": "C145", "title": "Document types are read as they are meant", "statement": "A document type made of entity, comment, element and attribute-list declarations (each list ending with an implied attribute) gives exactly the declared entities and defaults, in order; of two declarations of an entity the first counts; an external entity is skipped, so no file is ever opened for it.", "quantifier": "for all lists of declarations with any names, values and texts of the stated form", "why_tests_cant": "No test has a document type; the interplay of several declarations through the variable n needs all orders.", "anchors": ["wizard/xml-tree.c:1719-1948", "wizard/xml-tree.c:1490-1547"]}
{"id": "C146", "title": "Reading a document type ends and stays inside it", "statement": "Whatever bytes stand in a document type, reading them ends after a number of steps bounded by a polynomial in their number, and never leaves the text.", "quantifier": "for all byte strings, at any limit of entity depth", "why_tests_cant": "Hangs and overreads need one input out of all.", "anchors": ["wizard/xml-tree.c:1719-1948", "wizard/xml-tree.c:1429-1547", "wizard/xml-tree.c:1671-1717"]}
{"id": "C147", "title": "An attribute has its own value or the declared default", "statement": "GetXMLTreeAttribute returns the value of the element itself, or else the default any attribute list of its element declares; a list does not affect the declarations behind it.", "quantifier": "for all document types of the stated form, elements and attributes", "why_tests_cant": "Needs several lists for one element, and lists at every place.", "anchors": ["wizard/xml-tree.c:1801-1896", "wizard/xml-tree.c:828-855"]}
{"id": "C148", "title": "Token attributes are their words with one space between", "statement": "The value of an attribute that is not character data is decoded like any other, then loses spaces at both ends and has one space where there were several.", "quantifier": "for all values and tables of entities", "why_tests_cant": "A loop that moves bytes inside the buffer it reads; a few examples cannot cover it.", "anchors": ["wizard/xml-tree.c:1548-1569"]}
{"id": "C149", "title": "A path leads to the first child with each of its tags", "statement": "GetXMLTreePath with tags separated by slashes returns the element reached by going to the first child with each tag in turn, and nothing exactly if there is no such child.", "quantifier": "for all trees and all paths of tags without colon and bracket that fit the buffers", "why_tests_cant": "Depends on the whole tree.", "anchors": ["wizard/xml-tree.c:1031-1078", "wizard/xml-tree.c:927-942"]}
{"id": "C150", "title": "A number in a path counts the children with the tag, and only the tree matters", "statement": "A component tag[n] leads to the n-th child with that tag; what a path leads to does not depend on the files there are.", "quantifier": "for all trees, tags, numbers and file systems", "why_tests_cant": "The repository has no test with a second tag between, or with a directory named like a prefix.", "anchors": ["wizard/xml-tree.c:1056-1067", "wizard/utility.c:439-473"]}
{"id": "C151", "title": "Adding a path makes it lead somewhere and changes nothing else", "statement": "AddPathToXMLTree returns the element the path leads to afterwards; elements are only added, empty but for each other; a path that led somewhere leaves the tree as it is; adding twice is like adding once; nothing is returned only if nothing is added.", "quantifier": "for all trees, paths and offsets", "why_tests_cant": "An inductive statement on trees.", "anchors": ["wizard/xml-tree.c:212-266", "wizard/xml-tree.c:1220-1285"]}
{"id": "C152", "title": "Processing instructions are kept by target and in order", "statement": "After any sequence of processing instructions the list of a target has the data of all instructions with that target, in order; the declaration of XML itself is none.", "quantifier": "for all sequences of instructions", "why_tests_cant": "Arrays that grow by one with a string of places behind them; needs many instructions.", "anchors": ["wizard/xml-tree.c:1642-1717", "wizard/xml-tree.c:1105-1128"]}
{"id": "C153", "title": "Processing instructions are written where they stood", "statement": "XMLTreeInfoToXML writes each instruction once, in front of the root or behind it, as it was read.", "quantifier": "for all sequences of instructions", "why_tests_cant": "A printed document looks plausible with an instruction too many.", "anchors": ["wizard/xml-tree.c:2826-2858", "wizard/xml-tree.c:2865-2891"]}
{"id": "C154", "title": "The environment sets the limits of a process", "statement": "Each of the five variables WIZARD_..._LIMIT holding a number below 2^64 makes that number the limit of its resource and of no other, whatever the machine has; nothing is used when a process starts; a number with a unit is understood with its unit.", "quantifier": "for all environments, numbers, machines and earlier states", "why_tests_cant": "Tests run with one environment.", "anchors": ["wizard/resource.c:922-957", "wizard/string-private.h:59-62"]}
{"id": "C155", "title": "Without an environment the limits are those of the machine", "statement": "The limit of open files is three quarters of what the system allows and at least 64; the limit of memory is of the order of the memory there is.", "quantifier": "for all numbers of pages, page sizes and numbers of files", "why_tests_cant": "Tests run on one machine.", "anchors": ["wizard/resource.c:903-921", "wizard/resource.c:944-951"]}
{"id": "C156", "title": "The arguments of a command are expanded one by one, and fit their vector", "statement": "An argument vector becomes the concatenation, in order, of what each argument becomes alone; nothing is written behind the grown vector, options with parameters included; arguments without wildcards, options and quoted arguments stay as they are.", "quantifier": "for all argument vectors, file systems, working directories and sorting functions", "why_tests_cant": "Tests expand a few patterns in one directory; the vector overflows only for particular numbers of matches.", "anchors": ["utilities/utility.c:175-301", "wizard/token.c:497-526"]}
{"id": "C157", "title": "A pattern becomes the names of the files that match it", "statement": "A pattern in a directory becomes exactly the names of its visible accessible entries that match, in order of names, each with the directory in front; a pattern without directory those of the working directory, without its directories; a tilde stands for the home directory; a pattern without match or of an unreadable directory stays.", "quantifier": "for all directories, patterns, entries and file systems (entries of other directories do not have the name of a directory in the working directory)", "why_tests_cant": "Tests look at a few files.", "anchors": ["utilities/utility.c:84-145", "utilities/utility.c:231-280", "utilities/utility.c:389-513"]}
{"id": "C158", "title": "Only arguments that are patterns are expanded, and none is lost", "statement": "Parameters of options are not expanded; a pattern is never replaced by nothing; a file that matches is in the list whatever else there is; a pattern may end in a class and may be in the root directory; - names the standard input.", "quantifier": "for all argument vectors and file systems", "why_tests_cant": "Tests do not run in directories with like-named directories.", "anchors": ["utilities/utility.c:211-230", "utilities/utility.c:460-502", "wizard/option.c:437-500", "wizard/utility.c:457-473"]}
{"id": "C159", "title": "Encipher and decipher run with what the command line says", "statement": "A command line of known options with acceptable values and two names, in any order, runs with these names; each setting is the last value given for it, or the default.", "quantifier": "for all sequences of options and names, in any order and number", "why_tests_cant": "Tests try a few options one at a time; repeated and mixed ones are countless.", "anchors": ["utilities/encipher.c:187-576", "utilities/decipher.c:188-577", "utilities/content.c:69-97"]}
{"id": "C160", "title": "Command lines that are wrong are refused", "statement": "An unknown option, an option without its value, a value that is not in the table of the option, fail wherever they are; too few or too many names print the usage.", "quantifier": "for all sequences of options and names before and behind the wrong one", "why_tests_cant": "Tests try a few wrong options.", "anchors": ["utilities/encipher.c:222-576", "utilities/decipher.c:222-577"]}
{"id": "C161", "title": "Every option of the usage does what the usage says", "statement": "-key-length sets the length of the key; compression can be switched off; every option in the usage is known, in any case; + takes back an option; every event mask is accepted; a file that was enciphered can be deciphered whatever chunk size and key length were given.", "quantifier": "for all command lines, pass phrases, random numbers and contents", "why_tests_cant": "Tests do not try every option of the usage, nor a second run with the same keyring.", "anchors": ["utilities/encipher.c:100-145", "utilities/encipher.c:395-412", "utilities/decipher.c:394-411", "wizard/secret.c:310-321", "utilities/encipher.c:829-842", "wizard/log.c:1731-1753"]}
{"id": "C162", "title": "A keyring is listed without its secrets", "statement": "The listing of a keyring has a description of the file and of each of its keys in their order, with id, nonce, time and protocol; two keyrings that differ in key bytes or key lengths only have the same listing.", "quantifier": "for all keyrings, files, times and time formats", "why_tests_cant": "Tests list one keyring; that no bit of any key shows in any listing is about pairs of files.", "anchors": ["wizard/keyring.c:537-724", "wizard/string.c:1982-2028"]}
{"id": "C163", "title": "The keyring utility lists what it is asked to", "statement": "Given any number of keyring names and an output, the listings of the keyrings are written to the output in their order; given the output only, that of the default keyring; an unknown option fails wherever it is.", "quantifier": "for all names, outputs and listings", "why_tests_cant": "Tests try one or two keyrings.", "anchors": ["utilities/keyring.c:317-502"]}
{"id": "C164", "title": "The keyring utility survives damaged keyrings and does what its usage says", "statement": "A damaged keyring is reported; -export writes the key to the output; -help prints the usage; -list prints the list; the parameter of an option is not taken for a keyring.", "quantifier": "for all files and command lines", "why_tests_cant": "Tests do not damage files; the options are not tested at all.", "anchors": ["wizard/keyring.c:598-721", "wizard/file.c:505-511", "utilities/keyring.c:94-121", "utilities/keyring.c:123-315", "utilities/keyring.c:374-383"]}
{"id": "C165", "title": "What is written to a name is read from it again", "statement": "Data written through OpenBlob to a name that is not special is read back unchanged through the same name: without compression always, with it if the stream was compressed or the data do not begin like a compressed file; names ending in Z, gz and bz2, in any letter case, are compressed and others are not.", "quantifier": "for all names, data, file systems and builds, and all libraries that invert themselves", "why_tests_cant": "Tests write plain files; every mixture of extension, content and build is out of reach.", "anchors": ["wizard/blob.c:1014-1255"]}
{"id": "C166", "title": "A name opens the file of this name", "statement": "OpenBlob opens the file of the given name, whatever the name; a file is read as the bytes it has, so that enciphering and deciphering reproduce it; checking a digest file only reads the files it names.", "quantifier": "for all names, files and digest files", "why_tests_cant": "Tests do not use names with bars, nor compressed files.", "anchors": ["wizard/blob.c:1049-1107", "wizard/blob.c:1148-1179", "utilities/encipher.c:668-674", "utilities/decipher.c:661-667", "utilities/digest.c:411-419"]}
{"id": "C167", "title": "The utility digest describes each file once with the hash named before it", "statement": "For a command line of hashes and files, the file of the last name becomes a digest file (C86) with one description for each other file, in order, made with the hash that was last named before it, SHA2-256 if none was; a name that is no option is refused, behind the descriptions made before; with -authenticate the reports on all digest files but the last name are written, in order, to the last.", "quantifier": "for all command lines of any length, hashes, files, file systems and hash functions", "why_tests_cant": "Tests use one file and one hash.", "anchors": ["utilities/digest.c:117-509", "utilities/digest.c:511-790"]}
{"id": "C168", "title": "The utility digest works as its usage says and its exit code tells failure", "statement": "digest -authenticate with a digest file reads it; the exit code tells that files have changed or could not be read; only options ask for authentication; listing options touches no file; the standard input can be named.", "quantifier": "for all command lines", "why_tests_cant": "Tests do not look at exit codes, and name an output the usage does not mention.", "anchors": ["utilities/digest.c:104-107", "utilities/digest.c:174-178", "utilities/digest.c:573-583", "utilities/digest.c:843-872"]}
{"id": "C169", "title": "cipher-info prints the settings each file was enciphered with", "statement": "For any number of enciphered files, cipher-info prints for each, in order, the settings it was enciphered with, whatever the defaults and the files before; two reports are the same only if name and settings are, up to the rounding of the chunk size; what is no option is refused behind what was printed before.", "quantifier": "for all files as encipher leaves them, settings, names and defaults", "why_tests_cant": "Tests print one file with default settings.", "anchors": ["utilities/cipher-info.c:119-286", "utilities/content.c:625-674"]}
{"id": "C170", "title": "cipher-info tells of every packet only what is in it, and of failure by its exit code", "statement": "What is printed for an accepted packet comes from this packet; members a packet does not have are not printed; the exit code tells that a file could not be opened or is no packet; sizes have one unit.", "quantifier": "for all packets and command lines", "why_tests_cant": "Tests only use packets with all members.", "anchors": ["utilities/cipher-info.c:160-161", "utilities/cipher-info.c:270-281", "utilities/content.c:633-672", "wizard/string.c:1066-1068"]}
{"id": "C171", "title": "The log is configured as its files say", "statement": "Every log map of a file becomes an entry with the union of the events and handlers of all its attributes, in any spelling, and the last of each of its other attributes; unknown attributes change nothing; the entries are those of the files in their order and then the built-in one; the first of them is the one in effect, and an event is written if and only if one of the events named in it has its bit; SetLogEventMask sets just the mask to the events named.", "quantifier": "for all files, maps, elements, attributes, white space, spellings and events", "why_tests_cant": "The test suite reads one file, the one shipped.", "anchors": ["wizard/log.c:250-320", "wizard/log.c:386-425", "wizard/log.c:1436-1647", "wizard/log.c:1284-1296", "wizard/log.c:1731-1754"]}
{"id": "C172", "title": "Logs are found and listed by their names", "statement": "A log is found by its name; GetLogInfoList and GetLogList give the logs whose names match any pattern.", "quantifier": "for all texts of files, names and patterns", "why_tests_cant": "Nothing calls these functions but with '*'.", "anchors": ["wizard/log.c:408-425", "wizard/log.c:470-514", "wizard/log.c:563-607"]}
{"id": "C173", "title": "Masks of events are refused if unknown, and the listing names the handlers of each log", "statement": "SetLogEventMask returns the mask before; a name that is no event is refused alike in files and by SetLogEventMask; an empty list of events is no error; the listing shows the handlers of each log.", "quantifier": "for all lists of events, masks and logs", "why_tests_cant": "Tests do not misspell events, and do not compare the listing with the file.", "anchors": ["wizard/log.c:1576-1583", "wizard/log.c:1731-1754", "wizard/log.c:757-781", "wizard/log.c:144-155"]}
{"id": "C174", "title": "A generated key is recovered whatever happened before and since", "statement": "Over any sequence of calls of the authentication interface on any number of objects that share a keyring: a generated key has the length that was set, is found again by any object with the same hash under its id and pass phrase, and no key is accepted whose digest is not the id; a failure without pass phrase or record leaves the key as it was.", "quantifier": "for all sequences of calls, objects, pass phrases, hashes but SHA-224, lengths, random bytes and nonces", "why_tests_cant": "The test suite makes one key and authenticates it once.", "anchors": ["wizard/authenticate.c:100-648", "wizard/secret.c:124-553"]}
{"id": "C175", "title": "Keys of one object are independent of each other and of failures", "statement": "After a failed authentication there is no key; keys generated by one object tell nothing of each other in the keyring; a key has at least the bits that were asked for; an object without id is refused.", "quantifier": "for all sequences of calls, pass phrases, lengths and random bytes", "why_tests_cant": "Tests do not look at the key after a failure, nor at two records of one object.", "anchors": ["wizard/authenticate.c:153-184", "wizard/secret.c:138-139", "wizard/secret.c:172-173", "wizard/secret.c:194-196", "wizard/secret.c:314-315", "wizard/secret.c:324"]}
{"id": "C176", "title": "A printed size is the size up to half a percent", "statement": "FormatWizardSize prints a decimal number without exponent, a unit and B; number times unit is the size up to half a percent, and exactly if the size is a multiple of the unit or below the first one; InterpretSiPrefixValue reads all of it back to that value; sizes printed alike differ by at most a percent; the columns of the resource listing are the limits printed so.", "quantifier": "for all sizes below 2^64 and both systems of units", "why_tests_cant": "The loop over precisions and units has a case for every power of ten and of two; tests print a few sizes.", "anchors": ["wizard/string.c:1024-1073", "wizard/string.c:1418-1477", "wizard/resource.c:688-721"]}
{"id": "C177", "title": "Prefixes multiply", "statement": "A decimal number with a prefix k, K, M, G, T, P, E, Z, Y or h is the number times 10^e, with an i behind times 2^(10e/3), with or without B; as the argument of -chunksize it is the number of bytes of a chunk.", "quantifier": "for all decimal numbers, prefixes and rests of the text", "why_tests_cant": "Ten prefixes times all numbers.", "anchors": ["wizard/string.c:1418-1477", "wizard/string-private.h:32-45", "utilities/encipher.c:285-306"]}
{"id": "C178", "title": "Every size that is taken can be used, and every size is shown as what it is", "statement": "Prefixes for fractions are applied; -chunksize takes no negative and no empty chunks, so that all of the content is enciphered; the listing shows every unlimited resource as unlimited.", "quantifier": "for all arguments and contents", "why_tests_cant": "Tests give sensible sizes.", "anchors": ["wizard/string.c:1437-1462", "utilities/encipher.c:299-305", "utilities/encipher.c:829-836", "wizard/resource.c:702-711"]}
{"id": "C179", "title": "A printed string tells its contents", "statement": "PrintStringInfo prints the name, the length, and the bytes if all are ASCII text, else two hexadecimal digits for each; two strings printed alike under one name are equal.", "quantifier": "for all names and byte strings", "why_tests_cant": "A text may look like the digits of another string; only the length tells them apart.", "anchors": ["wizard/string.c:1712-1737"]}
{"id": "C180", "title": "HMAC is RFC 2104 for every hash but SHA-224", "statement": "For every hash type of the library but SHA-224, InitializeHMAC, UpdateHMAC, ResetHMAC and FinalizeHMAC give the RFC 2104 code of the key and of the concatenated pieces, whatever was done with the structure before; the one-call ConstructHMAC gives the same; there is only one such code.", "quantifier": "for all hashes but SHA-224, all keys, all ways to cut the text, all earlier histories of the structure", "why_tests_cant": "Any history and any way to cut the text.", "anchors": ["wizard/hmac.c:InitializeHMAC", "wizard/hmac.c:UpdateHMAC", "wizard/hmac.c:FinalizeHMAC", "wizard/hmac.c:ConstructHMAC"]}
{"id": "C181", "title": "A random value is the first word of the stream that is not all ones, scaled to the unit interval", "statement": "GetRandomValue takes eight bytes of the random stream at a time, skips words of all ones, and returns a value in [0,1] that is a function of the first other word.", "quantifier": "for all reservoirs, all streams of random bytes", "why_tests_cant": "A word of all ones comes once in 2^64 calls.", "anchors": ["wizard/random.c:GetRandomValue", "wizard/random.c:GetPseudoRandomValue"]}
{"id": "C182", "title": "A pass phrase is accepted only if the id is the keyed digest of the key it deciphers", "statement": "If AuthenticateSecretKey accepts, then HMAC of the deciphered key under the pass phrase is the id that was asked for.", "quantifier": "for all keyring files, structures, pass phrases and hashes but SHA-224", "why_tests_cant": "A test tries a few wrong phrases against well-formed keyrings.", "anchors": ["wizard/secret.c:GenerateSecretKey", "wizard/secret.c:AuthenticateSecretKey"]}
{"id": "C183", "title": "ConcatenateWizardString keeps the longest prefix that fits", "statement": "The destination becomes the longest prefix of old ++ new that fits the buffer with its NUL, the bytes behind are untouched, the return value is the length of the whole; a full buffer is left as it is.", "quantifier": "for all strings, buffers and lengths", "why_tests_cant": "Off-by-one errors show only where the concatenation just fits.", "anchors": ["wizard/string.c:CopyWizardString", "wizard/string.c:ConcatenateWizardString"]}
{"id": "C184", "title": "Relinquishing what was granted restores the counters, relinquishing more is caught", "statement": "An acquisition that is granted and then relinquished leaves all counters and limits as before, one that is refused changes none; returning more than is in use fails the assertion.", "quantifier": "for all counted resources, sizes and states", "why_tests_cant": "All states of the counters.", "anchors": ["wizard/resource.c:AcquireWizardResource", "wizard/resource.c:RelinquishWizardResource", "wizard/resource.c:SetWizardResourceLimit"]}
{"id": "C185", "title": "A list of option names is the union of its values", "statement": "ParseWizardOption on names separated by commas and blanks gives the bitwise or of their values.", "quantifier": "for all lists of names of all options but the command options", "why_tests_cant": "Any length of list, any case and blanks.", "anchors": ["wizard/option.c:ParseWizardOption", "wizard/option.c:WizardOptionToMnemonic"]}
{"id": "C186", "title": "FileToBlob on a seekable file is its first bytes or nothing", "statement": "Whatever sizes the reads return, the result is the first min(size, extent) bytes and a NUL, or NULL if the file ended early.", "quantifier": "for all sequences of answers of read and all sizes", "why_tests_cant": "The system decides how reads are cut.", "anchors": ["wizard/blob.c:FileToBlob"]}
{"id": "C187", "title": "SHA-256 counts its bits", "statement": "After updates of fewer than 2^32 bytes each, up to 2^61 bytes in total, the two counters hold the number of bits.", "quantifier": "for all sequences of updates", "why_tests_cant": "Carries occur after half a gigabyte.", "anchors": ["wizard/sha2256.c:UpdateSHA2256", "wizard/sha2512.c:UpdateSHA2512", "wizard/sha1.c:UpdateSHA1"]}
{"id": "C188", "title": "The entropy of the system is used whole", "statement": "If getentropy answers, the chaos is exactly its 64 bytes.", "quantifier": "for all answers", "why_tests_cant": "Nothing in the output tells whether it was used.", "anchors": ["wizard/random.c:GenerateEntropicChaos", "wizard/string.c:ConcatenateStringInfo"]}
{"id": "C189", "title": "Writes to a blob in memory stay in its buffer and are kept", "statement": "After any sequence of writes the blob holds the written bytes followed by those they did not cover, its offset is their number, and no write leaves the buffer.", "quantifier": "for all sequences of writes of any sizes", "why_tests_cant": "The buffer grows at certain sizes only.", "anchors": ["wizard/blob.c:WriteBlob", "wizard/blob.c:WriteBlobStream", "wizard/blob.c:SetBlobExtent"]}
{"id": "C190", "title": "A formatted time denotes the time in zones of whole hours", "statement": "FormatWizardTime gives a text of date, clock and offset that denotes the time, if the offset of the zone is a whole number of hours.", "quantifier": "for all times of the years 0 to 9999 and all zones of whole hours", "why_tests_cant": "Calendar arithmetic over all days.", "anchors": ["wizard/string.c:1105-1151"]}
{"id": "C191", "title": "A time printed west of Greenwich is read back; elsewhere the error is exactly known", "statement": "ParseWizardTime of FormatWizardTime is the time in a zone west of Greenwich without summer time; west of Greenwich in general it is off by exactly the summer time counted twice; at and east of Greenwich exactly the seconds and the offset are lost.", "quantifier": "for all times of the years 0 to 9999, all zones of whole hours, all summer times", "why_tests_cant": "The error depends on the zone of the tester.", "anchors": ["wizard/utility.c:951-1017", "wizard/string.c:1105-1151", "utilities/content.c:422", "utilities/content.c:510", "utilities/decipher.c:810-811"]}
{"id": "C192", "title": "Head and tail of a path", "statement": "Head and tail of d/f are d and f, those of a bare name are nothing and the name; chopping k components off a path with k of them leaves the directory.", "quantifier": "for all paths without colon and bracket that fit the buffer", "why_tests_cant": "All paths.", "anchors": ["wizard/utility.c:378-385", "wizard/utility.c:415-562"]}
{"id": "C193", "title": "Root, extension and base of a path, and replacing the extension", "statement": "Root and extension of r.e are r and e, the base of d/n.e is n; a name without dot is its own root; AppendFileExtension replaces the extension or appends one.", "quantifier": "for all paths without colon, bracket and question mark that fit the buffer", "why_tests_cant": "All paths.", "anchors": ["wizard/utility.c:94-108", "wizard/utility.c:415-562"]}
{"id": "C194", "title": "Parts in brackets and in front of a colon", "statement": "Of f[s] the subnode is s and the canonical path f; of fs:rest, where there is no such file and fs exists, the file system is fs and the canonical path rest.", "quantifier": "for all paths that fit the buffer and all answers of the file system", "why_tests_cant": "All paths.", "anchors": ["wizard/utility.c:415-562"]}
{"id": "C195", "title": "Tokens fit, make progress and stay inside the text", "statement": "A token with its NUL fits the buffer; where there is something not blank text is used up, so a loop over the tokens ends; text without an opening parenthesis is never overrun.", "quantifier": "for all texts and extents", "why_tests_cant": "All texts, well-formed or not.", "anchors": ["wizard/token.c:103-229"]}
{"id": "C196", "title": "The type of a file is the matching entry of least priority", "statement": "GetMimeInfo finds, among the entries whose pattern or magic matches, the last of those with the least priority, and nothing if none matches.", "quantifier": "for all caches of readable entries, file names and contents", "why_tests_cant": "All caches.", "anchors": ["wizard/mime.c:225-381"]}
{"id": "C197", "title": "Magic strings: escapes are read, every magic can be written", "statement": "Escapes are read as their bytes; every byte string has a text that is read as it; the result fits the room for it unless the text ends in a backslash.", "quantifier": "for all texts and byte strings", "why_tests_cant": "All escapes in all positions.", "anchors": ["wizard/mime.c:829-872"]}
{"id": "C198", "title": "The locale cache holds the messages of the file under the names of their groups", "statement": "Loading a well-formed locale file puts exactly its messages, each under the path of its groups, in front of the cache.", "quantifier": "for all nestings of groups and messages", "why_tests_cant": "All nestings.", "anchors": ["wizard/locale.c:1104-1380"]}
{"id": "C199", "title": "The list of exceptions is what was thrown, but for repetitions", "statement": "After any throws the list has the first of every run of alike exceptions, so everything thrown is in it up to case and nothing else; inheriting is throwing those of the relative.", "quantifier": "for all sequences of exceptions", "why_tests_cant": "All sequences.", "anchors": ["wizard/exception.c:920-959", "wizard/exception.c:659-682"]}
{"id": "C200", "title": "The exception that is shown is the last one thrown", "statement": "Severity, reason and description of the structure are those of the last exception, up to case.", "quantifier": "for all sequences of exceptions", "why_tests_cant": "All sequences.", "anchors": ["wizard/exception.c:920-959", "wizard/exception.c:627-632"]}
{"id": "C201", "title": "The fatal handler is called if and only if the last exception is fatal", "statement": "CatchException calls the fatal handler, for every exception of the list, exactly if the last thrown was fatal.", "quantifier": "for all sequences of exceptions", "why_tests_cant": "All sequences.", "anchors": ["wizard/exception.c:226-252", "wizard/exception.c:323-335"]}
{"id": "C202", "title": "Severities have different tags", "statement": "Two severities with the same non-empty tag are equal.", "quantifier": "for all numbers", "why_tests_cant": "All inputs.", "anchors": ["wizard/exception.c:997-1027", "wizard/exception.c:517-579"]}
{"id": "C203", "title": "A timer shows the time of the runs that count", "statement": "After any starts, stops, continues and looks the elapsed and user times are those of the runs that count, and one epsilon for every stop; looking again shows the same.", "quantifier": "for all sequences of operations without reset and all clocks", "why_tests_cant": "All sequences.", "anchors": ["wizard/timer.c:138-152", "wizard/timer.c:244-253", "wizard/timer.c:345-352", "wizard/timer.c:380-399", "wizard/timer.c:423-437"]}
{"id": "C204", "title": "A pass-phrase is the line that was typed twice alike", "statement": "GetPhrase returns the line, or a character for each of its bytes in the other modes, and always fits its buffer; GetPassphrase returns a line only if it was typed twice alike, and does so after any number of attempts that differ.", "quantifier": "for all lines, terminals and numbers of attempts", "why_tests_cant": "Any number of attempts.", "anchors": ["wizard/passphrase.c:126-270", "wizard/passphrase.c:294-335"]}
{"id": "C205", "title": "Times in the log are right to half a thousandth", "statement": "Minutes, seconds and thousandths are the time up to half a thousandth, if it rounds to fewer than a thousand thousandths.", "quantifier": "for all times", "why_tests_cant": "All inputs.", "anchors": ["wizard/log.c:1127-1132"]}
{"id": "C206", "title": "Every event is in one of the generations of the log", "statement": "Whatever the sizes of the events, every one of them is in one of the files, no byte written before is lost, and only the files below the number of generations are used; records of events without < tell the events apart.", "quantifier": "for all sequences of events, limits and numbers of generations", "why_tests_cant": "Rotation needs megabytes of events.", "anchors": ["wizard/log.c:1330-1373", "wizard/log.c:1618-1623"]}
{"id": "C207", "title": "A list of log handlers is the union of them", "statement": "ParseLogHandlers of names with commas between them is the union of their values.", "quantifier": "for all non-empty lists of names", "why_tests_cant": "All lists.", "anchors": ["wizard/log.c:1672-1705", "wizard/log.c:144-155"]}
{"id": "C208", "title": "A temporary file is new, in its directory and registered", "statement": "The name is the directory, wizard-, the process and twelve random characters, each of which tells six bits; if the name is not already registered up to case, the file did not exist before, exists after, is registered, and no other file is touched.", "quantifier": "for all directories with room for the name, random bytes and states of the file system", "why_tests_cant": "The name must collide to show errors.", "anchors": ["wizard/resource.c:250-352", "wizard/splay-tree.c:152-218"]}
{"id": "C209", "title": "Temporary files are removed, and only they", "statement": "Relinquishing a registered file removes it and its entry and nothing else; the end removes exactly the registered files; registered names stay apart, and without a limit on files no file is left over after any history.", "quantifier": "for all histories of acquiring and relinquishing", "why_tests_cant": "All histories.", "anchors": ["wizard/resource.c:983-995", "wizard/resource.c:336-352"]}
{"id": "C210", "title": "UTF-16 is turned into UTF-8 inside the block", "statement": "The loop turns the UTF-16 form of any characters in both byte orders into their UTF-8 form; for any bytes it stays inside the block; a text without mark is kept.", "quantifier": "for all sequences of characters and of bytes", "why_tests_cant": "Surrogates and growth of the block at any place.", "anchors": ["wizard/xml-tree.c:1313-1391", "wizard/xml-tree.c:2030-2031"]}
{"id": "C211", "title": "Attributes of a tag: setting one that is there, looking up", "statement": "Setting an attribute that is there changes it alone; the first one of a tag is added; removing what is not there changes nothing; looking up gives the first pair with the tag, else the default; what was set is found and the others are as before.", "quantifier": "for all lists of attributes and defaults", "why_tests_cant": "All lists.", "anchors": ["wizard/xml-tree.c:2523-2582", "wizard/xml-tree.c:811-852", "wizard/xml-tree.c:2088-2150"]}
{"id": "C212", "title": "Where configuration files are read from", "statement": "All directories of WIZARD_CONFIGURE_PATH are searched in their order before any other; the last place is .config/WizardsToolkit in the home directory; of the four variables for the settings of the user the first that is set decides.", "quantifier": "for all environments and file systems with names that fit", "why_tests_cant": "All environments.", "anchors": ["wizard/configure.c:594-656", "wizard/configure.c:677-880"]}
{"id": "C213", "title": "Configuration files with includes: what is loaded", "statement": "Exactly the elements of files reached by includes are appended, each with the name of its file, those of a file behind those of the files it includes; an include is looked up in the directory of the file; loading always ends.", "quantifier": "for all file systems and chains of includes", "why_tests_cant": "Cycles and depths.", "anchors": ["wizard/configure.c:1064-1160", "wizard/mime.c:837-850", "wizard/log.c:1503-1525"]}
{"id": "C214", "title": "Looking up a configuration entry finds the first with the name, always the same", "statement": "The first entry with the name in any case is found and moved to the front; the list keeps its entries; after any other lookups the same entry is found.", "quantifier": "for all caches of named entries and histories of lookups", "why_tests_cant": "All histories.", "anchors": ["wizard/configure.c:333-367"]}
{"id": "C215", "title": "Listings of configuration entries are complete and sorted", "statement": "The list has exactly the entries that are not hidden and match the pattern, each as often as it is stored, in order; so has the list of names, wherever the copies are in memory.", "quantifier": "for all patterns and caches, any correct sorting function", "why_tests_cant": "All patterns and caches.", "anchors": ["wizard/configure.c:400-459", "wizard/configure.c:492-548", "wizard/mime.c:521-577"]}
{"id": "C216", "title": "The cache is loaded once, in every execution of any threads", "statement": "With POSIX threads, or OpenMP after the start: one semaphore and one cache at most, a thread that is done has a cache, never two threads inside, nobody waits for ever, and every thread is done after a bounded number of steps.", "quantifier": "for all numbers of threads and all interleavings", "why_tests_cant": "Interleavings.", "anchors": ["wizard/semaphore.c:247-258", "wizard/semaphore-private.h:40-110", "wizard/configure.c:938-950", "wizard/log.c:655-667", "wizard/mime.c:662-674", "wizard/locale.c:903-938"]}
{"id": "C217", "title": "Semaphores: threads take turns, wrong unlocks are caught", "statement": "In disciplined histories the owner is the thread that locked and the count is one; who locks what is held waits; unlocking what another thread locked fails the assertion, unlocking twice is reported.", "quantifier": "for all histories of any threads", "why_tests_cant": "All histories.", "anchors": ["wizard/semaphore.c:281-317", "wizard/semaphore.c:437-469"]}
{"id": "C218", "title": "Starting and ending the library: no semaphore is lost or relinquished twice", "statement": "Whatever is called in whatever order, each component has one semaphore at most and none is relinquished twice; starting or ending twice is doing so once; after the end log, random, resource and type components have left nothing; between them temporary files can be made.", "quantifier": "for all histories of calls", "why_tests_cant": "All orders.", "anchors": ["wizard/wizard.c:205-350", "wizard/configure.c:211-267", "wizard/resource.c:283-355", "wizard/resource.c:983-992", "wizard/log.c:824-891"]}
{"id": "C219", "title": "Which signals the library catches and what it does then", "statement": "Of the nine signals those with the default action get the handler of the library, every other action and every other signal is kept, and the table keeps what was there; a signal the program handles still is, one with the default action removes the temporary files and exits with its number.", "quantifier": "for all tables of actions", "why_tests_cant": "All combinations.", "anchors": ["wizard/wizard.c:116-205", "wizard/wizard.c:264-304"]}
{"id": "C220", "title": "Reading a document type ends and stays inside the text", "statement": "Without per cent signs reading ends inside the text whatever is written; a reference to a parameter entity between declarations ends them or, in a document that stands alone, is skipped; the document stands alone if and only if a declaration says so.", "quantifier": "for all texts", "why_tests_cant": "All texts, well-formed or not.", "anchors": ["wizard/xml-tree.c:1719-1948", "wizard/xml-tree.c:1429-1547", "wizard/xml-tree.c:1671-1717"]}
{"id": "C221", "title": "A number in an XML path counts children behind the first with the tag", "statement": "tag[n] is the child n-1 places behind the first with the tag, whatever its tag; a tag with a colon is found if there is no directory of the name in front.", "quantifier": "for all trees, tags and numbers", "why_tests_cant": "All trees.", "anchors": ["wizard/xml-tree.c:1056-1067", "wizard/utility.c:439-473"]}
{"id": "C222", "title": "What AddPathToXMLTree adds is found", "statement": "The path is found after it was added, leads along the tags, the tree only grows; a path that is there is not added again.", "quantifier": "for all trees and paths of plain tags", "why_tests_cant": "All trees.", "anchors": ["wizard/xml-tree.c:212-266", "wizard/xml-tree.c:1220-1285"]}
{"id": "C223", "title": "Limits of resources are read from the environment", "statement": "A limit that is set in the environment is what strtoul reads from it, in particular the number that is written in decimal; what is in use is not changed.", "quantifier": "for all environments and numbers below 2^64", "why_tests_cant": "All numbers.", "anchors": ["wizard/resource.c:922-957", "wizard/string-private.h:59-62"]}
{"id": "C224", "title": "The limit of files is three quarters of those that can be open", "statement": "Without a setting the limit of files is three quarters of those that can be open, rounded down, and at least 64.", "quantifier": "for all numbers of files from 86 on", "why_tests_cant": "All numbers.", "anchors": ["wizard/resource.c:903-921", "wizard/resource.c:944-951"]}
{"id": "C225", "title": "An element of mime.xml is read as the entry it stands for", "statement": "Numbers in decimal, octal and hexadecimal with sign and blanks are read as their values; the offset is one number or an offset and an extent with a colon; names of types of data and byte orders are read in any case; the magic is the bytes of its text, or its number; everything else is copied.", "quantifier": "for all attributes that are well-formed, including all integers of 64 bits", "why_tests_cant": "Ten attributes, each with its own syntax.", "anchors": ["wizard/mime.c:855-968", "wizard/option.c:422-504"]}
{"id": "C226", "title": "The type that is found is the best of those that were written", "statement": "All elements are kept in their order, and GetMimeInfo finds the last of those with the least priority among the entries that describe the file, or none if none does.", "quantifier": "for all lists of well-formed elements, all file names and contents", "why_tests_cant": "All combinations of entries.", "anchors": ["wizard/mime.c:855-968", "wizard/mime.c:225-388"]}
{"id": "C227", "title": "Mistakes in mime.xml are harmless", "statement": "A negative offset concerns no more than its element; a number may be written with escapes; unknown names of data types and byte orders are rejected; entities that are text are text.", "quantifier": "for all elements and lookups", "why_tests_cant": "Tests use the file that is shipped.", "anchors": ["wizard/mime.c:267", "wizard/mime.c:893-936", "wizard/mime.c:871-881", "wizard/mime.c:304-317"]}
{"id": "C228", "title": "WizardToMime returns the type of the entry whose pattern fits, else image/x- and the name in lower case", "statement": "The result is the type of the best entry for the file name file.NAME in lower case with the content of one space, and image/x-name if there is none.", "quantifier": "for all caches and names that fit the buffer", "why_tests_cant": "All caches.", "anchors": ["wizard/mime.c:1073-1095", "wizard/string.c:1563-1572"]}
{"id": "C229", "title": "WizardToMime only returns types that are registered for the name", "statement": "If no pattern fits the name the result is image/x-name; every entry whose pattern is *.NAME is found.", "quantifier": "for all caches and names", "why_tests_cant": "It depends on other entries.", "anchors": ["wizard/mime.c:1073-1095"]}
{"id": "C230", "title": "Listings show every visible entry once under the title of its path", "statement": "ListConfigureInfo and ListMimeInfo print a title for every path, up to case, once, and under it a row for each visible entry with this path, in order, with name and value in their columns.", "quantifier": "for all caches whose entries have names, any correct sorting function", "why_tests_cant": "All caches.", "anchors": ["wizard/configure.c:976-1033", "wizard/mime.c:700-757"]}
{"id": "C231", "title": "Every configuration can be listed", "statement": "Elements without a name or type do not keep others from being listed; an empty list is listed as such.", "quantifier": "for all caches", "why_tests_cant": "Tests list what is shipped.", "anchors": ["wizard/configure.c:418-459", "wizard/mime.c:441-485", "wizard/mime.c:713-715"]}
{"id": "C232", "title": "Destroying an object gives back its memory and nothing else", "statement": "For strings, hashes, HMACs, ciphers, random generators, keyrings, secrets without pass phrase, authentication, trees and keys: the function that destroys it frees every block that belongs to the object exactly once and leaves all others as they are; a second call uses freed memory.", "quantifier": "for all heaps and all objects of these classes, with any of their members set", "why_tests_cant": "It concerns all shapes of the heap; freed blocks do not show in the results.", "anchors": ["wizard/string.c:857-867", "wizard/cipher.c:703-744", "wizard/hash.c:231-300", "wizard/hmac.c:174-190", "wizard/random.c:289-307", "wizard/keyring.c:152-168", "wizard/secret.c:234-258", "wizard/authenticate.c:208-232", "wizard/key.c:154-172", "wizard/splay-tree.c:678-739"]}
{"id": "C233", "title": "Programs that destroy what they acquire leak nothing and use nothing that is freed", "statement": "In a program which acquires objects, sets their members to strings and destroys objects in any order the live blocks are at any time exactly those of its objects, no two of which share a block; nothing is left when all have been destroyed.", "quantifier": "for all such programs of any length", "why_tests_cant": "All interleavings of acquiring, setting and destroying.", "anchors": ["wizard/string.c:179-200", "wizard/cipher.c:134-204", "wizard/hash.c:99-205", "wizard/hmac.c:91-111", "wizard/random.c:166-270", "wizard/keyring.c:108-129", "wizard/secret.c:124-143", "wizard/authenticate.c:100-127"]}
{"id": "C234", "title": "A key is acquired and destroyed without leaks", "statement": "AcquireKeyInfo leaves the blocks of the key, its tree with the session key among them, and no others; DestroyKeyInfo gives all of them back and the heap is as before.", "quantifier": "for all heaps, nonces, entropies and session keys", "why_tests_cant": "The tree and the strings that are made on the way.", "anchors": ["wizard/key.c:111-236", "wizard/splay-tree.c:152-218", "wizard/splay-tree.c:678-739"]}
{"id": "C235", "title": "What is set is copied", "statement": "SetKeyringId, SetKeyringKey, SetKeyringNonce, SetSecretId and SetAuthenticateId make the member a new string with the bytes of the argument, which is unchanged and not shared; SetStringInfo and SetCipherNonce keep the length and fill up with zeros.", "quantifier": "for all objects and all strings that are not part of them", "why_tests_cant": "Sharing shows only when one of them is destroyed or changed later.", "anchors": ["wizard/keyring.c:752-824", "wizard/secret.c:482-487", "wizard/authenticate.c:521-545", "wizard/string.c:1792-1805", "wizard/cipher.c:1394-1402"]}
{"id": "C236", "title": "Secrets are wiped when they are destroyed", "statement": "Destroying a string, cipher, keyring, secret or generator zeros the memory that belongs to it, as the comments say.", "quantifier": "for all objects", "why_tests_cant": "Freed memory is not seen by tests.", "anchors": ["wizard/string.c:838-867", "wizard/memory.c:1039-1082", "wizard/random.c:289-307", "wizard/aes.c:475-491"]}
{"id": "C237", "title": "DestroySecretInfo gives back the pass phrase", "statement": "All blocks that belong to a secret are freed.", "quantifier": "for all secrets with a pass phrase", "why_tests_cant": "Leaks do not show in results.", "anchors": ["wizard/secret.c:234-258", "wizard/secret.c:547-553"]}
{"id": "C238", "title": "A member may be set to its own value", "statement": "Setting the key, nonce or id of a keyring, secret or authentication to what its getter returned changes nothing.", "quantifier": "for all objects whose member is set", "why_tests_cant": "The freed string often still has its bytes.", "anchors": ["wizard/keyring.c:785-824", "wizard/secret.c:482-487", "wizard/authenticate.c:521-545"]}
{"id": "C239", "title": "The nonce of a cipher may be set to itself", "statement": "SetCipherNonce with the string that GetCipherNonce returned changes nothing.", "quantifier": "for all ciphers", "why_tests_cant": "A test would have to look for exactly this.", "anchors": ["wizard/cipher.c:1332-1338", "wizard/cipher.c:1394-1402", "wizard/string.c:1792-1805"]}
{"id": "C240", "title": "Threads that use resources are counted one after the other", "statement": "However the loads, stores and tests of AcquireWizardResource, RelinquishWizardResource, GetWizardResource, GetWizardResourceLimit and SetWizardResourceLimit interleave, the calls of all threads have the results they would have had one after the other in an order which extends that of each thread and in which a call that has returned comes before one that has not begun; the counters are those of that order. A process that ends in a call would have ended in it in that order too. There is no deadlock and a call takes at most 8 steps.", "quantifier": "for all numbers of threads, all programs of theirs, all states and all schedules", "why_tests_cant": "The schedules of a test are few and are not chosen by it.", "anchors": ["wizard/resource.c:388-489", "wizard/resource.c:549-596", "wizard/resource.c:615-662", "wizard/resource.c:746-815", "wizard/resource.c:1021-1057", "wizard/semaphore.c:282-318"]}
{"id": "C241", "title": "Threads may add to a tree and look in it while one walks through it", "statement": "Calls of AddValueToSplayTree, GetValueFromSplayTree, GetNumberOfNodesInSplayTree, ResetSplayTreeIterator by any threads and of GetNextKeyInSplayTree, GetNextValueInSplayTree by one take effect one after the other although the tree is looked at before the lock is taken; on a new tree no thread dereferences NULL and the results are those of a finite map.", "quantifier": "for all compare methods, all numbers of threads, all programs of these calls and all schedules", "why_tests_cant": "It depends on what a look without the lock may see in the middle of the call of another thread.", "anchors": ["wizard/splay-tree.c:152-218", "wizard/splay-tree.c:766-794", "wizard/splay-tree.c:820-848", "wizard/splay-tree.c:875-905", "wizard/splay-tree.c:930-937", "wizard/splay-tree.c:1428-1437"]}
{"id": "C242", "title": "Threads may remove from a tree", "statement": "Calls of RemoveNodeFromSplayTree, DeleteNodeFromSplayTree and lookups, and of the functions that walk, by any threads take effect one after the other and do not crash.", "quantifier": "for all programs of threads and all schedules", "why_tests_cant": "The window is a few instructions wide.", "anchors": ["wizard/splay-tree.c:600-655", "wizard/splay-tree.c:766-794", "wizard/splay-tree.c:875-905", "wizard/splay-tree.c:1255-1311"]}
{"id": "C243", "title": "A linked list that threads share keeps its capacity and does not crash", "statement": "AppendValueToLinkedList never leaves more elements than the capacity and RemoveLastElementFromLinkedList returns NULL when there is none.", "quantifier": "for all lists, all threads and all schedules", "why_tests_cant": "The window is a few instructions wide.", "anchors": ["wizard/hashmap.c:147-178", "wizard/hashmap.c:1823-1862"]}
{"id": "C244", "title": "Threads that share a random generator get different bytes of one stream", "statement": "Calls of SetRandomKey by any threads take effect one after the other; the keys that they get are consecutive pieces of one stream of HMAC digests, so that no byte of it is given out twice. There is no deadlock.", "quantifier": "for all generators, all numbers of threads, all requests and all schedules", "why_tests_cant": "Equal bytes would hardly be noticed.", "anchors": ["wizard/random.c:1068-1121"]}
{"id": "C245", "title": "Threads that share a pseudo-random generator get different values", "statement": "The values that threads get from GetPseudoRandomValue are those of one sequence, each given out once.", "quantifier": "for all seeds and schedules", "why_tests_cant": "Equal values would hardly be noticed.", "anchors": ["wizard/random.c:779-794"]}
{"id": "C246", "title": "Programs on XML elements build the forest they mean and own nothing else", "statement": "When all calls of a program of NewXMLTreeTag, AddChildToXMLTree, InsertTagIntoXMLTree, PruneTagFromXMLTree, SetXMLTreeContent, SetXMLTreeAttribute, GetXMLTreeChild and DestroyXMLTree return, the elements, links to parents, first children and next ordered ones, texts and attributes in memory are those of the forest that the program means; each block belongs to one element, and the blocks in use are those of the forest and one table for each root that was put below another element. When all elements were destroyed and no root was put below another, no block is in use.", "quantifier": "for all programs that use an element only as long as it exists, destroy and insert only elements that are below no other and prune only those that are", "why_tests_cant": "Every sequence of calls has its own layout of memory; leaks and shared blocks do not show in results.", "anchors": ["wizard/xml-tree.c:164-182", "wizard/xml-tree.c:476-607", "wizard/xml-tree.c:927-942", "wizard/xml-tree.c:1220-1285", "wizard/xml-tree.c:2394-2427", "wizard/xml-tree.c:2450-2493", "wizard/xml-tree.c:2523-2576", "wizard/xml-tree.c:2614-2625"]}
{"id": "C247", "title": "DestroyXMLTree gives back a tree once and nothing else", "statement": "DestroyXMLTree of an element that is below no other one returns; every block of the element and of those below it is given back exactly once, every other block stays as it is, and no block is used after it was given back.", "quantifier": "for all forests in memory and all their elements that are below no other", "why_tests_cant": "The recursion goes through three lists whose links it cuts on the way; a block given back twice may go unnoticed.", "anchors": ["wizard/xml-tree.c:476-514", "wizard/xml-tree.c:516-530", "wizard/xml-tree.c:532-607"]}
{"id": "C248", "title": "Programs that prune nothing never follow a dangling link and always end", "statement": "All calls of a program that prunes no element and sets no second attribute of an element return, whatever the offsets and tags are: the links to the next child with the same tag and to the next tag lead to later children of the same element only, so that every loop ends and no NULL pointer and no block that was given back is used.", "quantifier": "for all such programs", "why_tests_cant": "The lists of tags depend on the order of insertion, the offsets and the tags.", "anchors": ["wizard/xml-tree.c:164-182", "wizard/xml-tree.c:927-942", "wizard/xml-tree.c:1220-1285", "wizard/xml-tree.c:2394-2427", "wizard/xml-tree.c:2523-2576", "wizard/xml-tree.c:2614-2625", "wizard/xml-tree.c:593-607"]}
{"id": "C249", "title": "An element that was pruned is in no list any more", "statement": "After PruneTagFromXMLTree the element may be destroyed; the other children are still found by their tags.", "quantifier": "for all trees and children", "why_tests_cant": "It depends on which of the lists of tags the element was in.", "anchors": ["wizard/xml-tree.c:2450-2493", "wizard/xml-tree.c:1268-1284"]}
{"id": "C250", "title": "A program that destroys all elements gives back all its memory", "statement": "When all elements that NewXMLTreeTag, AddChildToXMLTree and NewXMLTree made were destroyed or never returned, no block is in use.", "quantifier": "for all programs and documents", "why_tests_cant": "Leaks do not show in results.", "anchors": ["wizard/xml-tree.c:532-591", "wizard/xml-tree.c:1220-1232", "wizard/xml-tree.c:2009-2038"]}
{"id": "C251", "title": "An element may be destroyed where it is", "statement": "DestroyXMLTree of an element that is below another one gives back this element and those below it only, and the other one can be used.", "quantifier": "for all trees and elements", "why_tests_cant": "It depends on whether there are children behind the element.", "anchors": ["wizard/xml-tree.c:593-607", "wizard/xml-tree.c:516-530"]}
{"id": "C252", "title": "Children are found by their tags, all of them and in their order", "statement": "In every forest that a program builds without pruning, GetXMLTreeChild of an element returns its first child with the tag, and GetNextXMLTreeTag leads from there through all other children with this tag, in the order of the children, and then to NULL; without such a child GetXMLTreeChild returns NULL.", "quantifier": "for all programs that prune no element and set no second attribute of an element, all offsets, elements and tags", "why_tests_cant": "The two lists are changed by every insertion, in ways that depend on the offsets and on the tags of the children before and behind.", "anchors": ["wizard/xml-tree.c:164-182", "wizard/xml-tree.c:778-785", "wizard/xml-tree.c:927-942", "wizard/xml-tree.c:1220-1285"]}
{"id": "C253", "title": "GetLocaleInfoList and ListLocaleInfo tell every message once, in order", "statement": "Whatever was stored, looked up and listed before, GetLocaleInfoList returns the messages that are not hidden and whose tags match the pattern up to case, each once, by path and tag, never more than there is room for, and leaves the cache as it is; ListLocaleInfo prints every message that is not hidden once, under the one title of its file.", "quantifier": "for all histories of the cache, patterns and sort routines", "why_tests_cant": "The iterator is in the tree that every look-up reshapes.", "anchors": ["wizard/locale.c:506-528", "wizard/locale.c:562-625", "wizard/locale.c:1023-1066"]}
{"id": "C254", "title": "GetLocaleList tells the tags of all messages", "statement": "GetLocaleList returns the tags of the messages that are not hidden and match the pattern.", "quantifier": "for all caches and patterns", "why_tests_cant": "Nothing in the repository calls it; among hundreds of tags one that is missing is not seen.", "anchors": ["wizard/locale.c:674-716", "wizard/locale.c:506-528"]}
{"id": "C255", "title": "C strings in memory are what the calls made of them", "statement": "After any sequence of AcquireString, ConstantString, CloneString, ConcatenateString and DestroyString in which no variable is given its own text and NULL is appended to NULL only, every variable is NULL or has the text it was given, ended by a zero, in a block of its own; nothing is read or written outside of a block or after it was given back, no other block is left, and a text too long for size_t ends the program.", "quantifier": "for all sequences of calls, texts, and choices of realloc to move a block or not", "why_tests_cant": "realloc moves a block only now and then, and a byte written beyond the end is seldom noticed.", "anchors": ["wizard/string.c:133-157", "wizard/string.c:280-307", "wizard/string.c:417-448", "wizard/string.c:655-677", "wizard/string.c:830-834", "wizard/memory-private.h:43-55"]}
{"id": "C256", "title": "CloneString and ConcatenateString accept every string as the source", "statement": "A string may be cloned to itself or appended to itself, and NULL, which AcquireString and CloneString take for no text, may be appended.", "quantifier": "for all texts", "why_tests_cant": "It depends on whether realloc moves the block.", "anchors": ["wizard/string.c:280-307", "wizard/string.c:417-448"]}
{"id": "C257", "title": "The client has the name and the path it was given last", "statement": "After any sequence of starts, ends, SetClientName and SetClientPath, also with places in the buffer itself, GetClientName and GetClientPath return the last ones that were not empty, as far as they fit, ended by a zero inside their buffers.", "quantifier": "for all sequences of calls, texts and sizes of the buffers", "why_tests_cant": "Copying within one buffer works or fails with the direction of the loop, at lengths near the extent.", "anchors": ["wizard/client.c:64-156", "wizard/wizard.c:253-262", "wizard/utility.c:643-673", "wizard/string.c:762-806"]}
{"id": "C258", "title": "Starting a program sets its name and its directory", "statement": "Whatever happened before, starting as d/f makes f the name of the client and d its path.", "quantifier": "for all histories in which the library is not started at the end, directories d and names f", "why_tests_cant": "A process is usually started once.", "anchors": ["wizard/wizard.c:253-262", "wizard/client.c:114-156"]}
{"id": "C259", "title": "The path of the client is the directory of the program that was started", "statement": "After the start of a program without a directory the path is empty, after the start of a program in the root it is the root.", "quantifier": "for all programs", "why_tests_cant": "Tests start programs from a directory, once.", "anchors": ["wizard/wizard.c:261-262", "wizard/utility.c:500-503", "wizard/client.c:148-156"]}
{"id": "C260", "title": "Reading an XML document ends, also behind a document type", "statement": "NewXMLTree returns on every text without '%', well formed or not, with a tree or a warning: the DOCTYPE, its declarations, the entities it declares and the elements behind it.", "quantifier": "for all texts of bytes but NUL and '%'", "why_tests_cant": "The fuzzed part of the language is small; entities declared in the text change what the rest of it costs.", "anchors": ["wizard/xml-tree.c:1988-2370", "wizard/xml-tree.c:1719-1945"]}
{"id": "C261", "title": "A document with a document type is read as it is meant", "statement": "A document of an XML declaration, a DOCTYPE with entities, comments, elements and lists of attributes, and elements with attributes, texts, children and references to the five special characters and to the declared entities, is read as the tree of XML 1.0: references stand for the values, white space in values of attributes is a space and none is left around tokens, children are where they stand in the text; what is declared is kept, and attributes that are not given have their defaults.", "quantifier": "for all such documents, of any depth and length", "why_tests_cant": "Tests have a few documents; how entities, attributes and children interleave is not exhausted.", "anchors": ["wizard/xml-tree.c:1988-2370", "wizard/xml-tree.c:1719-1945", "wizard/xml-tree.c:1394-1571", "wizard/xml-tree.c:1573-1640"]}
{"id": "C262", "title": "Entities of a document may have any values", "statement": "An entity whose value has markup stands for that markup where it is referred to, and a value in quotes may have any characters but the quote, '%' and '&'.", "quantifier": "for all values", "why_tests_cant": "Tests declare entities of words.", "anchors": ["wizard/xml-tree.c:2280-2286", "wizard/xml-tree.c:1394-1571"]}
{"id": "C263", "title": "A hash-map relinquishes each key and value it has taken once, or returns it", "statement": "In every program of puts, gets, removals and iterations, with or without memory, that ends with DestroyHashmap, the keys given to relinquish_key are those PutEntryInHashmap has taken, each as often, and the values given to relinquish_value or returned by RemoveEntryFromHashmap are those it has taken; pointers that are given once are relinquished once, and none of them is in the map afterwards.", "quantifier": "for all hash and comparison methods, capacities but 0, programs and failures of memory", "why_tests_cant": "A leak or a second free on some path (replacing, growing, out of memory) does not change what a test sees.", "anchors": ["wizard/hashmap.c:328-372", "wizard/hashmap.c:1410-1567", "wizard/hashmap.c:1739-1801"]}
{"id": "C264", "title": "A hash-map without relinquish methods relinquishes nothing and behaves the same", "statement": "With relinquish_key or relinquish_value NULL the map gives away no key or value, and its answers and entries are the same as with them.", "quantifier": "for all hash and comparison methods, programs and states", "why_tests_cant": "Tests use one choice of methods.", "anchors": ["wizard/hashmap.c:352-355", "wizard/hashmap.c:1541-1544", "wizard/hashmap.c:1787-1788"]}
{"id": "C265", "title": "What is in a hash-map has not been relinquished, also if a pointer is put again or a put is refused", "statement": "Putting a key again, with the same pointer, keeps it; and PutEntryInHashmap returns False only if the caller still owns the key and the value.", "quantifier": "for all keys and values", "why_tests_cant": "A use after free may go unnoticed, and memory does not run out in tests.", "anchors": ["wizard/hashmap.c:1524-1548", "wizard/hashmap.c:1555-1561"]}
{"id": "C266", "title": "A splay tree relinquishes each key and value it has taken once, or returns it", "statement": "In every program of additions, look-ups, deletions and removals by key and by value, iterations and resets, with or without memory, the keys that AddValueToSplayTree took are those in the tree, those given to relinquish_key and those RemoveNodeByValueFromSplayTree returned, each as often, and likewise the values; after DestroySplayTree all are relinquished or returned; what was refused stays with the caller; pointers taken once are relinquished once and what is in the tree has not been.", "quantifier": "for all comparison methods that order the keys, with and without pointer comparison, and all programs of less than 2^1024 calls", "why_tests_cant": "A leak or a second free on some path (replacing, removing by value, the walk that frees the nodes) does not change what a test sees.", "anchors": ["wizard/splay-tree.c:152-218", "wizard/splay-tree.c:484-655", "wizard/splay-tree.c:669-736", "wizard/splay-tree.c:1145-1310", "wizard/splay-tree.c:1335-1401"]}
{"id": "C267", "title": "A splay tree without relinquish methods relinquishes nothing and behaves the same", "statement": "With relinquish_key or relinquish_value NULL the tree gives away no key or value, and its answers and nodes are the same as with them.", "quantifier": "for all comparison methods, programs and states", "why_tests_cant": "Tests use one choice of methods.", "anchors": ["wizard/splay-tree.c:171-182", "wizard/splay-tree.c:1094-1116"]}
{"id": "C268", "title": "A splay tree reads only keys it holds and the key it is given", "statement": "What a call does depends, of what keys point to, only on the keys in the tree and on the key of the call; calls of the iterator also on the key the iterator waits at, and that key is in the tree as long as, since the iterator was reset, only reading and adding calls were made that relinquished no key.", "quantifier": "for all pairs of comparison methods that agree on these keys, all states that the calls can reach, and all walks", "why_tests_cant": "Reading freed memory often yields what was there before.", "anchors": ["wizard/splay-tree.c:765-793", "wizard/splay-tree.c:1470-1594"]}
{"id": "C269", "title": "What a splay tree has relinquished is not used again, also if a pointer is added again or the iterator waits at it", "statement": "Adding a key again, with the same pointer, keeps it; and deleting the key the iterator waits at does not leave the iterator with a key that was relinquished.", "quantifier": "for all trees", "why_tests_cant": "A use after free may go unnoticed.", "anchors": ["wizard/splay-tree.c:171-182", "wizard/splay-tree.c:627-654", "wizard/splay-tree.c:765-793"]}
{"id": "C270", "title": "A linked list relinquishes each value it has taken once, or returns it", "statement": "In every program of appends, insertions at the ends, removals by index, by value and of the last element, clears and reads, the values the list has taken are those LinkedListToArray shows, those ClearLinkedList has given to the relinquish method and those the removals have returned, each as often; DestroyLinkedList gives the rest to the method; without a method nothing is relinquished and all else is the same.", "quantifier": "for all capacities, heaps, allocators that return free addresses or fail, and programs whose insertions are at the ends", "why_tests_cant": "A leak or a second free does not change what a test sees.", "anchors": ["wizard/hashmap.c:203-229", "wizard/hashmap.c:397-420"]}
{"id": "C271", "title": "A value that InsertValueInLinkedList accepts is in the list until it is removed or relinquished", "statement": "When InsertValueInLinkedList returns True the value is in the list, and the end of the list relinquishes it.", "quantifier": "for all lists, indexes and values", "why_tests_cant": "Tests insert at the ends.", "anchors": ["wizard/hashmap.c:1030-1049", "wizard/hashmap.c:397-420"]}
{"id": "C272", "title": "The compression libraries are called in the order they ask for, and failures are reported once", "statement": "Whatever the libraries answer, IncreaseEntropy and RestoreEntropy open one coder, code only with a coder that is open, end none that was not opened (lzma_end may), and throw one exception if they return False and none if they return True; zip and bzip return True just if every call succeeds; after True the coder has been ended, and chaos is as long as total_out, which is no longer than the room that was given.", "quantifier": "for all answers of the libraries, which may depend on all that went before, all three codings and all sequences of requests", "why_tests_cant": "A test cannot make zlib, bzip2 or liblzma fail in each of their calls.", "anchors": ["wizard/zip.c:210-339", "wizard/bzip.c:217-344", "wizard/lzma.c:213-374", "wizard/entropy.c:283-409"]}
{"id": "C273", "title": "LZMA coders are ended on every path", "statement": "IncreaseLZMA and RestoreLZMA leave no coder open, whether they succeed or fail, at whichever call.", "quantifier": "for all answers of liblzma", "why_tests_cant": "A leak does not change what a test sees.", "anchors": ["wizard/lzma.c:247-274", "wizard/lzma.c:342-369"]}
{"id": "C274", "title": "Every coder that is opened is ended", "statement": "After IncreaseEntropy and RestoreEntropy no coder of the libraries is open.", "quantifier": "for all answers of the libraries, all codings and requests", "why_tests_cant": "Tests restore what was increased before, with room enough.", "anchors": ["wizard/zip.c:241-246", "wizard/zip.c:323-329", "wizard/bzip.c:247-253", "wizard/bzip.c:328-334"]}
{"id": "C275", "title": "A chunk written to a stream is a prefix of the data, and the count says how long", "statement": "When WriteBlobChunk to a file, a pipe or a compressed stream returns i, the stream has taken the first i bytes of the data and nothing else; when ReadBlobChunk returns i bytes, they are the next i bytes of the stream and no byte is lost or read twice; if i is less than was asked for, errno is not EINTR. A stream that takes or gives at least one byte at each call is written or read in full.", "quantifier": "for all data and lengths (for compressed streams in full: below 2^31), all numbers of bytes that each call of stdio, zlib or bzip2 moves, and all values of errno", "why_tests_cant": "A test cannot make a disk or a pipe take one byte, or be interrupted, at a given call.", "anchors": ["wizard/blob.c:1286-1420", "wizard/blob.c:1533-1561", "wizard/blob.c:1882-2001", "wizard/blob.c:2129-2156"]}
{"id": "C276", "title": "A chunk is written in full to a stream that takes all it is given", "statement": "WriteBlobChunk to a stream that takes at least a byte at each call writes all of the data, whatever their length, and ends.", "quantifier": "for all kinds of streams, data and schedules", "why_tests_cant": "Tests do not write 2 GiB.", "anchors": ["wizard/blob.c:1366", "wizard/blob.c:1411", "wizard/blob.c:1957", "wizard/blob.c:1998", "wizard/blob.c:2144-2154"]}
{"id": "C277", "title": "A random device is read whole or not at all", "statement": "ReadRandom returns -1, and then errno is not EINTR, or it has read exactly as many bytes as asked for, the next of the device in order; a device that gives at least a byte at each call, or is interrupted, is read whole; the chunk that GenerateEntropicChaos appends is 64 bytes of the device.", "quantifier": "for all devices, lengths and answers of read(2)", "why_tests_cant": "A test cannot choose what read(2) of a device answers.", "anchors": ["wizard/random.c:336-360", "wizard/random.c:559-568", "wizard/random.c:591-604"]}
{"id": "C278", "title": "A random device that cannot be read is an exception", "statement": "If reading /dev/urandom or /dev/random fails, GenerateEntropicChaos goes on without it.", "quantifier": "for all answers of read(2)", "why_tests_cant": "Devices do not fail in tests.", "anchors": ["wizard/random.c:562-567", "wizard/string.c:1865-1881"]}
{"id": "C279", "title": "Entropy that compresses well is rejected", "statement": "GenerateEntropicChaos ends the program if what it has gathered compresses to less than half its length.", "quantifier": "for all strings gathered and all compressors", "why_tests_cant": "Tests do not run without entropy.", "anchors": ["wizard/random.c:610-624"]}
{"id": "C280", "title": "Threads that share exceptions end, if exceptions are inherited one way", "statement": "If there is an order of the exceptions such that exceptions are inherited, and handlers throw, only from lower to higher ones, then threads that throw, clear, catch, inherit and destroy exceptions never all wait for each other's semaphores; and no order of turns goes on for ever.", "quantifier": "for all numbers of threads, all their calls, all contents of the lists of exceptions, all bounded orders and all orders of turns", "why_tests_cant": "A deadlock needs an order of turns that tests seldom hit.", "anchors": ["wizard/exception.c:178-201", "wizard/exception.c:226-252", "wizard/exception.c:399-414", "wizard/exception.c:659-682", "wizard/exception.c:920-959", "wizard/semaphore.c:282-304"]}
{"id": "C281", "title": "Threads may inherit exceptions from each other", "statement": "InheritException can be called by several threads with any exceptions, and CatchException with any handlers, without deadlock.", "quantifier": "for all threads, calls and orders of turns", "why_tests_cant": "A deadlock needs an order of turns that tests seldom hit.", "anchors": ["wizard/exception.c:226-252", "wizard/exception.c:659-682"]}
{"id": "C282", "title": "Listed option names are read back", "statement": "ListWizardOptions prints one line for each name of the table, in order, except a first Undefined; each line is read by ParseWizardOption as its type, also names that are not the first of their type and in any letter case; -list with any name that -list list prints shows the table of that name.", "quantifier": "for all tables but that of commands, all their names and letter cases", "why_tests_cant": "Tests list one table and parse the first name of each type.", "anchors": ["wizard/option.c:283-305", "wizard/option.c:370-391", "wizard/option.c:422-504", "utilities/keyring.c:242-247"]}
{"id": "C283", "title": "Every table of options can be listed", "statement": "For each table of options there is an argument of -list that prints it.", "quantifier": "for all tables and arguments", "why_tests_cant": "That no argument exists cannot be tested.", "anchors": ["wizard/option.c:185-200", "wizard/option.c:226-235", "utilities/keyring.c:242-247"]}
{"id": "C284", "title": "A signal leaves no temporary files between calls", "statement": "When a signal arrives between calls of the temporary file functions the process exits, and of the files it made only those relinquished without trashing are left; when it arrives within a call and the tree of temporary files is not locked, at most the file of that call is left besides; files that no call named are never removed.", "quantifier": "for all files there are, all sequences of calls, and every moment of the call that is interrupted", "why_tests_cant": "A test cannot choose the instruction at which a signal arrives.", "anchors": ["wizard/resource.c:254-355", "wizard/resource.c:511-530", "wizard/resource.c:843-869", "wizard/wizard.c:152-162"]}
{"id": "C285", "title": "A signal removes the temporary files and ends the process", "statement": "Whenever a signal arrives, AsynchronousResourceComponentTerminus removes all temporary files and returns.", "quantifier": "for all sequences of calls and every moment of the call that is interrupted", "why_tests_cant": "A test cannot choose the instruction at which a signal arrives.", "anchors": ["wizard/resource.c:511-530", "wizard/splay-tree.c:1433", "wizard/random.c:294-317", "wizard/wizard.c:152-162"]}
{"id": "C286", "title": "A blob opened by the name of a file gives back what it took", "statement": "From OpenBlob to DestroyBlob, with any uses and any number of CloseBlob in between, the stream, the compressed stream, the mapping and its units of the resource, the semaphore and the structure are each given back exactly once, and never when they are not in hand; so it is with standard input and output.", "quantifier": "for all answers of the system, modes, contents and sequences of calls without SetBlobExtent of a mapped file", "why_tests_cant": "Handles that are not closed, or closed twice, do not show in results.", "anchors": ["wizard/blob.c:236-345", "wizard/blob.c:366-399", "wizard/blob.c:422-444", "wizard/blob.c:1014-1255"]}
{"id": "C287", "title": "Every blob gives back what it took", "statement": "Descriptors, commands and named pipes that are opened are closed; a blob that cannot be opened leaves nothing; SetBlobExtent keeps the mapping in hand or gives it back once.", "quantifier": "for all answers of the system and sequences of calls", "why_tests_cant": "Handles that are not closed, or closed twice, do not show in results.", "anchors": ["wizard/blob.c:294-298", "wizard/blob.c:1057-1127", "wizard/blob.c:1246-1251", "wizard/blob.c:1640-1655"]}
{"id": "C288", "title": "Programs that replace the memory methods while they hold nothing lose no memory and keep their bytes", "statement": "A program that acquires, resizes, writes and relinquishes memory, and replaces all three memory methods by those of one allocator only while it holds nothing, does what it means: every block holds the bytes last written or kept, is at least one byte long, belongs to one variable and is handed only to the allocator it came from; a resize that fails or overflows gives the block back; when all variables are empty no block is left.  The methods that GetWizardMemoryMethods returned can be set again.", "quantifier": "for all such programs, sizes and answers of the allocators", "why_tests_cant": "Handing a block to the wrong allocator, or leaking one when a resize fails, depends on the order of calls and shows only in the allocator.", "anchors": ["wizard/memory.c:144-199", "wizard/memory.c:586-592", "wizard/memory.c:657-669", "wizard/memory.c:876-887", "wizard/memory.c:1039-1045", "wizard/memory.c:1175-1186", "wizard/memory.c:1236-1250", "wizard/memory.c:1281-1295"]}
{"id": "C289", "title": "The memory methods can be replaced at any time, and one by one", "statement": "After SetWizardMemoryMethods, blocks that are held can still be resized and relinquished; methods given as NULL keep working together with the others.", "quantifier": "for all allocators and programs", "why_tests_cant": "It depends on what is held when the methods are replaced.", "anchors": ["wizard/memory.c:1039-1045", "wizard/memory.c:1281-1295"]}
{"id": "C290", "title": "Fatal errors end the process with a status that tells so, and handlers are those set last", "statement": "ThrowFatalException ends the process with a status other than 0: with the default handler the message is shown once and the status is the severity modulo 256, with a handler of the application it is called once with the exception.  ThrowWizardFatalError with a domain and an error ends it with a status that tells both, 0 for one pair only.  The handlers in force are those set last, each call that sets one returns the one before, which undoes it.  Exceptions the last of which is not fatal are each given once to the handler of their kind, in order.", "quantifier": "for all fatal severities, domains, errors, messages, handlers and sequences of calls that set them", "why_tests_cant": "A process that ends cannot be observed in the test that ends it; all handlers and all lists of exceptions.", "anchors": ["wizard/exception.c:98-106", "wizard/exception.c:226-252", "wizard/exception.c:282-376", "wizard/exception.c:713-789", "wizard/exception.c:813-887", "wizard/exception-private.h:29-88"]}
{"id": "C291", "title": "Fatal errors tell what went wrong and where", "statement": "ThrowWizardFatalError shows or reports the error; its status is that of the domain concerned, different from that of fatal exceptions and of success; messages name the place they come from.", "quantifier": "for all domains, errors, severities and messages", "why_tests_cant": "A process that ends cannot be observed in the test that ends it.", "anchors": ["wizard/exception-private.h:65-76", "wizard/exception.c:1010-1025", "wizard/lzma.c:103", "wizard/zip.c:100", "wizard/serpent.c:107", "wizard/sha2256.c:118"]}
{"id": "C292", "title": "Values of thread keys belong to their thread", "statement": "With thread support every thread reads under a key what it put there last itself, NULL before that, also when the number of a deleted key is given out again; failures are reported and change nothing; what other threads put changes nothing of what a thread reads.  Without thread support the same holds for programs of one thread that set a key before they read it.", "quantifier": "for all sequences of calls of all threads that use keys between creation and deletion, all ways the system numbers keys or places memory, all failures", "why_tests_cant": "All interleavings of threads and all reuses of keys.", "anchors": ["wizard/thread.c:63-75", "wizard/thread.c:98-110", "wizard/thread.c:134-143", "wizard/thread.c:171-182", "wizard/thread_.h:25-47"]}
{"id": "C293", "title": "Thread keys mean the same in all variants of the code", "statement": "Values are private to their thread and NULL before they are set, whether or not the code is compiled with thread support.", "quantifier": "for all programs that use keys between creation and deletion", "why_tests_cant": "A test runs one variant; what new memory holds varies.", "anchors": ["wizard/thread.c:68", "wizard/thread.c:72", "wizard/thread.c:141", "wizard/thread.c:179", "wizard/thread_.h:35"]}
{"id": "C294", "title": "The file of the log is sound whatever threads log", "statement": "However the steps of the threads interleave, if none closes the log while another one logs, no closed stream and no NULL is used, and once the calls have returned every file is a start, events and, but for the one that is open, an end; the events in the files are those whose calls returned WizardTrue, each once and in that order.  So it is if the log is never closed, or if one thread does everything.  A thread that closes the log while nobody logs leaves no file open and every file ended.", "quantifier": "for all interleavings of all threads, rotations, failures to open the file", "why_tests_cant": "All interleavings; each read of the field and each call that uses it is a step.", "anchors": ["wizard/log.c:338-359", "wizard/log.c:1283-1386"]}
{"id": "C295", "title": "The log may be closed at any time", "statement": "CloseWizardLog may be called by a thread while others log; the text of every event is freed.", "quantifier": "for all interleavings of all threads, failures to open the file", "why_tests_cant": "A race of two threads on one field; failures of fopen.", "anchors": ["wizard/log.c:351-358", "wizard/log.c:1288-1290", "wizard/log.c:1347-1361"]}
{"id": "C296", "title": "GetXMLTreeAttributes copies the attributes of an element", "statement": "When there is memory, GetXMLTreeAttributes on a new tree maps every name to a copy of the value of the last attribute of that name and other names to nothing; for an element without two attributes of one name, values that are NULL and defaults this is what GetXMLTreeAttribute tells.", "quantifier": "for all lists of attributes, all names, all comparisons that tell texts apart", "why_tests_cant": "All lists of attributes, in any order, through a tree that is rebalanced.", "anchors": ["wizard/xml-tree.c:880-902", "wizard/xml-tree.c:828-852", "wizard/string.c:655-676"]}
{"id": "C297", "title": "GetXMLTreeAttributes tells what GetXMLTreeAttribute tells", "statement": "The two agree for every element; WizardTrue means that all attributes are in the tree.", "quantifier": "for all elements, declarations and failures of memory", "why_tests_cant": "Attributes given twice, defaults, failures of memory.", "anchors": ["wizard/xml-tree.c:891-901", "wizard/xml-tree.c:832-852"]}
{"id": "C298", "title": "A free file lock is obtained at any attempt, a held one is waited for ten times", "statement": "A caller of AcquireFileInfo that no other thread disturbs obtains a lock that is free, whichever of its ten attempts finds it free, and then the lock file names it; while another live thread holds the lock it never holds it, leaves the lock file in place while it waits, and fails after its last attempt, not before.", "quantifier": "for all states of the system, threads, attempts, numbers of attempts left and calls made", "why_tests_cant": "All states in which a caller may come, with ten waits of a second.", "anchors": ["wizard/file.c:157-221"]}
{"id": "C299", "title": "GetWizardResource and GetWizardResourceLimit tell what was granted and set", "statement": "GetWizardResourceLimit tells the limit set last, or the one at the start, after any calls; GetWizardResource tells what was granted and not given back while no counter can overflow, and for the area the size last asked for or given back.", "quantifier": "for all histories of calls, resource types and sizes", "why_tests_cant": "All histories, with refused requests and limits that change.", "anchors": ["wizard/resource.c:554-606", "wizard/resource.c:620-672", "wizard/resource.c:388-489", "wizard/resource.c:746-815"]}
{"id": "C300", "title": "GetWizardResource tells what is in use, in megabytes", "statement": "For every type GetWizardResource tells the amount that is granted and not given back, in the megabytes of its description, never above the limit.", "quantifier": "for all histories of calls and resource types", "why_tests_cant": "Areas given back, sizes beyond the range of the counters.", "anchors": ["wizard/resource.c:543-547", "wizard/resource.c:554-606", "wizard/resource.c:760-768"]}
{"id": "C301", "title": "The name of the log is the last one given", "statement": "GetLogName tells the last name given to SetLogName that is neither NULL nor empty, cut to what fits in the buffer, and Wizard before; giving a place in the returned name leaves what is there from that place on.", "quantifier": "for all lists of names, sizes of the buffer and places in the name", "why_tests_cant": "Names of any length, one after another, in a buffer that keeps what longer names left.", "anchors": ["wizard/log.c:204-205", "wizard/log.c:627-630", "wizard/log.c:1819-1824", "wizard/string.c:762-806"]}
{"id": "C302", "title": "Of words in braces the first that compares decides", "statement": "A pattern that is a list of non-empty plain words in braces matches an expression exactly if the first word that begins with the expression, or that the expression begins with, begins with it; if no word begins another and the expression is no shorter than any word, it matches exactly if it is one of the words.", "quantifier": "for all lists of words, expressions and case flags", "why_tests_cant": "All lists of words of any length, in any order.", "anchors": ["wizard/token.c:379-431"]}
{"id": "C303", "title": "An expression that is one of the words in braces matches", "statement": "A pattern of words in braces matches each of its words and nothing else, in whatever order they are written.", "quantifier": "for all lists of words and expressions", "why_tests_cant": "Words that begin other words.", "anchors": ["wizard/token.c:379-431"]}
