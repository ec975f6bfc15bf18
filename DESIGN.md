# Formal model of WizardsToolkit in Rocq/Coq 8.16.1

`/repo` is read as text only; nothing in it is built, run or changed.  The
model lives in `rocq/theories/`.  Every definition that models code carries a
comment with file and line numbers in `/repo`; every simplification is written
in that comment.

## Conventions

* bytes are `N` below 256, machine words `N` below 2^32 / 2^64, byte strings
  `list N`; `size_t` counters that may wrap are `N` reduced modulo 2^64; sizes
  of in-memory buffers are `nat` (they are bounded by the address space).
* `StringInfo` is a record of a reported length and the full allocation
  (`length + 128` slack bytes), so reads and writes beyond the reported length
  are visible in the model, and a write beyond the allocation is an explicit
  error outcome.
* loops on possibly non-terminating data take fuel and return an explicit
  out-of-fuel value; theorems show it is not produced (or, for the refuted
  termination claims, that it is produced for every fuel).
* external calls (operating system, random pad bytes, zlib/bzip2, time) are
  parameters of the modelled function, i.e. universally quantified in the
  theorems.  No axioms, no global `Variable`/`Hypothesis`.
* files: `*Model.v` definitions only, `*Spec.v` independent specifications,
  `*Proof.v` lemmas, `*Props.v` final theorems (`Theorem ... exact lemma`),
  non-vacuity `Example`s and `Print Assumptions`.
* a property that is false of the code is kept in `properties.jsonl`; the
  theorem `..._refuted` exhibits the counterexample in the model and a
  weaker `..._partial` (or the correct fragment) is proved.

## Plan per property

| id | model | proof |
|----|-------|-------|
| C01 AES=FIPS-197 | T-table encipher, table key schedule, zero padding of keys | FIPS-197 spec over GF(2^8) (xtime), tables compared entry by entry (finite sweep), block equality by rewriting |
| C02 AES inverse | separate decipher tables and key schedule | via inverse cipher spec; InvMixColumns linear inverse; round induction |
| C03 ChaCha | 16-word core, 10 double rounds, LE serialisation | equality with quarter-round spec, XOR involution |
| C04 Serpent inverse | bit-sliced S-boxes, linear maps, 33 round keys | each S-box inverse lifted bitwise, round induction |
| C05 Serpent full block | same, blocksize 32 | refuted: second 16 bytes unchanged for all keys |
| C06 Twofish inverse | 16 Feistel rounds, g-functions from S-box tables | round inverse for arbitrary g |
| C07 round trip | five modes on StringInfo with slack, pad bytes from random oracle | induction on blocks, per mode |
| C08 SP 800-38A | same | equality with list-of-blocks spec |
| C09 padding | same | arithmetic + bounds of all writes |
| C10 CTR distinct | IncrementCipherNonce | big-endian value increases by one; injectivity |
| C11 keystream sharing | same | refuted for CTR and OFB |
| C12 SHA-256 | Update/Finalize/Transform with buffer, offset, counters | buffer invariant over update history; Transform = FIPS compression |
| C13 SHA-512/384 | same with 64-bit words | same |
| C14 SHA-1 | same | same |
| C15 MD5 | same | same |
| C16 SHA-224 | Transform without accumulator 7 | `_partial` for short messages, refuted in general |
| C17 SHA-3 sponge | queue, Absorb, Pad, Squeeze | invariant over histories |
| C18 FIPS 202 | same | refuted by the empty message |
| C19 Update terminates | same with fuel | terminates below 2^32 bits, refuted above |
| C20 CRC-64 | table + update | equality with bit-serial division |
| C21 CRC burst | same | linearity and invertibility of the byte step |
| C22 HMAC | InitializeHMAC.. over abstract hash | RFC 2104 spec; object history |
| C23 hash reusable | InitializeHash on arbitrary old state | state independence |
| C24 random stream | SetRandomKey over abstract block function | refinement to prefix of a stream |
| C25 random nonce | IncrementRandomNonce | value increases |
| C26 xoshiro | state step | explicit inverse; SpecFloat value range |
| C27 value < 1 | same | refuted by witness state |
| C28 reservoir file | Save/Get on byte lists | parse of serialise; CRC |
| C29 entropy dependence | AcquireRandomInfo data flow | refuted (digest read before it is computed) |
| C30-C34 keyring | Import/Export on file bytes, crash = prefix of the writes | parser/serialiser induction; C33, C34 refuted |
| C35 secret | Generate/Authenticate over abstract cipher/HMAC | from C30 and C07 |
| C36 reported success | write outcomes as oracle | refuted |
| C37 key map | Set/GetKeyInfo over splay map model | from C07, C38 |
| C38-C40 splay tree | Splay/Balance/Add/Remove/iterate on binary trees | in-order preservation, BST invariant, depth bound |
| C41-C43 hashmap | bucket lists, growth, entries counter | refinement to finite map; C43 refuted |
| C44 pointer hash | arithmetic modulo 2^64 | explicit inverse of each step |
| C45-C46 linked list | head/tail/next list model | refinement to lists; middle insert refuted |
| C47 hex | both functions | list induction, byte sweep |
| C48 base64 | both functions with buffer bound | induction by 3-byte groups |
| C49-C50 StringInfo | buffer model | refinement; C50 refuted |
| C51 bounded copy | unrolled loops | strlcpy spec |
| C52 LocaleCompare | loop | order laws |
| C53 glob | recursive matcher | equality with declarative relation |
| C54 substitute/strip | loops | spec equality, non-termination refutation |
| C55 chunked I/O | loops over OS oracle | induction on schedules |
| C56 file lock | transition system | refuted trace; true for restricted protocol |
| C57 resources | counters modulo 2^64 signed | invariant over histories |
| C58-C59 content | chunk loop over abstract cipher/HMAC | round trip; truncation refuted |
| C60 options | table, parse, mnemonic | finite sweep lifted over letter cases |
| C61 allocation | overflow test | arithmetic |
| C62-C63 Twofish, Serpent conformance | same models | equality with the papers' round functions (GF(2^8) tables from polynomials; S-boxes as tables) |
| C64 FileToBlob | read loop over OS answers | invariant on buffer extent; pipe branch refuted |
| C65 length counters | MdModel | arithmetic of the two counters; refuted at 2^32 bytes |
| C66-C67 splay destroy/clone | free order, clone by iteration | permutation of the nodes; equal contents |
| C68-C73 termination of chunked I/O, random device, protocol 1.0 records, timestamps, session keystreams | models of C55, C29, C28, C30, C35, C37 | refutations with the true fragment |
| C74-C75 glob classes, bounds | C53's model | same relation; refuted for alternatives and unfinished patterns |
| C76 virtual memory | AcquireVirtualMemory over ResourceModel | balance without limits, refuted with limits |
| C77 signature.c | Transform on 64-bit words | reuses the streaming proof and the FIPS specification |
| C78-C81 blob streams | stdio/mapped/heap stream model | simulation of mapped by file reads; refutations |
| C82-C86 attribute and digest-file readers | byte scanner with EOF, key and value buffers | scanner invariant, writer/reader round trip; refutations |
| C87-C93, C98 XML | text escapes, entity expansion, parser with element stack, printer | RFC 3629 decoder, weight argument for expansion, simulation printer/parser by tree induction |
| C96-C97 settings of enciphered content | text of the RDF header, nodes found, fields set | step lemmas of the XML reader on that text |
| C94-C95 XML links | children as heap cells with three threaded lists | representation invariant (ordered, sibling, next lists) preserved by each call |
| C99-C104 embeddable allocator | word memory inside mapped segments, free lists by size class, split and join | heap of chunks as ghost state, invariant preserved by every step; view of the program |
| C105-C106 timestamps | calendar, zone as a function of the instant, strtod as argument | day count by induction on the year, text digit by digit |
| C107-C110 paths | paths as byte lists, file tests as arguments | position of the last separator by induction |
| C111 arguments | inductive relation of lines | induction on the relation; totality by length |
| C112-C113 tokens | scan over the text, strtod as argument | induction on the text |
| C114-C115 content types | cache as a list, describes as a specification; escapes as an inductive relation | fold invariant over the cache; induction on the relation |
| C116-C117 locale files | forest of groups and its printed form; the loader turn by turn over GetNextToken | one lemma per element, induction on the forest |
| C118-C121 exceptions | list of exceptions, runs of alike ones as specification, trace of handler calls | invariant over throws |
| C122 stopwatch | integer clock, runs as specification | simulation step by step |
| C123 pass-phrases | reads as a list of results | induction on lines and attempts |
| C124-C125 compression | libraries as arguments with promises | case analysis on lengths modulo 2^32 |
| C126-C129 log | formats as pieces, files as contents by generation, handlers as entries | induction on pieces, events, entries |
| C130-C133 temporary files | file system as a predicate, registered names as a list | induction on tries and histories |
| C134-C135 UTF-16 and attributes | bytes, slots that may be unwritten | induction on characters and pairs, arithmetic of surrogates |
| C136-C139 configuration | lists of entries, files as a function, sort as an argument | induction on lists, chains of includes and histories; any sort with its contract |
| C140 caches loaded once | threads as program counters over shared memory, any number | invariant over all interleavings, decreasing measure |
| C141-C144 semaphores, life cycle, signals | small state machines | induction on histories |
| C145-C148 document types | text functions on suffixes, general fuel | induction on declarations; suffix and weight measures |
| C149-C153 paths and processing instructions | addresses in trees; lists per target | induction on paths, histories |
| C154-C155 initial limits | environment, sysconf results as arguments | arithmetic on 64 bits |
| C156-C158 expansion of arguments | file system, sort as arguments; capacity of the vector | induction over the arguments |
| C159-C161 command lines | specification of words, fields and places; expansion and numbers as arguments | induction over the words |
| C162-C164 utility keyring | specification of the visible part of an entry; expansion, opening and printing as arguments | induction over the entries and the names; converse by inverting the reads |
| C165, C166 opening | names, libraries, file system and build as arguments | case analysis; digest files by the scanner of C86 |
| C167, C168 digest command | arguments, the description of a file and the check of a digest file as functions | induction over the words of the command line |
| C169, C170 cipher-info | packets as in C96, FormatWizardSize as a function | induction over the files with the packet round trip; injectivity of the lines |
| C171-C173 log configuration | the loader on the text, by GetNextToken of C112 | induction over maps, elements and attributes; invariant over all texts for the names |
| C174-C175 authentication | objects and one keyring over sequences of calls | invariant of objects and records by induction over the calls |
| C176-C179 sizes | printing and reading of sizes, listing of limits, printing of strings | %g over rationals, error bound of rounding, round trip through the reader |
| C180-C224 parts that hold | for claims refuted as a whole, the part that holds, stated with its restriction as a property of its own | theorems of the parent claims |
| C225-C231 content types | reading mime.xml, WizardToMime, listings of types and configuration | numbers of strtol with base 0, relation between attributes and entries, groups of a sorted list |
| C232-C239 objects in memory | which blocks are acquired, owned, given back, copied | heap of blocks, ownership as an inductive relation with footprints, invariant over programs |
| C240-C245 shared objects | threads, a lock, calls as sequences of accesses | linearizability by a forward simulation that keeps the state before the call which has the lock; laws for what a look without the lock may see |
| C246-C251 memory of XML elements | a heap of blocks, programs of calls | refinement to forests with a separation of blocks; the lists of tags lead to later children; counterexamples by evaluation |
| C252 tags of XML elements | the heap of C246 | invariant on two lists of links per list of children, kept by every call |
| C253, C254 lists of messages | the splay tree of C37-C43 with its iterator | invariant of the iterator over the loop; reduction of the sort to C139 |
| C255, C256 C strings in memory | blocks of bytes, some never written; realloc may move | effect of each call on one block; refinement over programs |
| C257-C259 client | static buffers, CopyWizardString of C51, GetPathComponent of C108 | refinement over histories |
| C260-C262 XML documents | the parser with the declared entities and types as its state | weight argument with declared entities; induction on documents for the round trip |
| C263-C265 owners of keys and values | the hash-map of C41 with what it relinquishes | permutations of taken, held, freed and returned pointers as invariant |
| C266-C269 owners of keys and values | the splay tree of C38 with what it relinquishes | permutations of taken, held, freed and returned pointers as invariant; agreement of two comparisons for what is read |
| C270-C271 owners of values | the linked list of C45 with what it relinquishes | permutation of taken, held, freed and returned pointers as invariant |
| C272-C274 calls of the compression libraries | the calls as events, the libraries as arguments | automaton of the protocol, over all answers; induction over requests |
| C275-C276 chunks of streams | the calls of stdio, zlib and bzip2 with a schedule of how much each moves | induction over turns, prefix as invariant |
| C277-C279 gathering entropy | ReadRandom over the answers of read(2); the estimate over any compressor | induction over answers; arithmetic |
| C280-C281 semaphores of exceptions | calls as sequences of locks; threads in any order | locks are taken upwards: the thread that waits for the highest waits for none; witness schedules |
| C282-C283 lists of options | ListWizardOptions as bytes, its lines read by the model of ParseWizardOption | induction over tables; the tables are constants |
| C284-C285 signals and temporary files | calls as small steps, the handler between any two | invariant of each step; explicit moments for the refutations |
| C286-C287 handles of blobs | events of taking and giving back over the answers of the system | the events of a life are computed; counting |
| C288-C289 memory methods | allocators by number, blocks with owners and bytes, programs over variables | refinement of a store of byte strings; invariant |
| C290-C291 fatal errors, handlers | effects and status over the exceptions of ExceptionModel.v | case analysis; induction over the calls that set handlers and over the list of exceptions |
| C292-C293 thread keys | calls of all threads over cells per thread and key | invariant by induction over the calls |
| C294-C295 log file and threads | threads with a place in the code each, one step per read of log_info->file | invariant of the thread that is busy, induction over the schedule |
| C296-C297 attributes of an element | calls of AddValueToSplayTree over the finite map of SplaySpec.v | induction over the attributes, refinement of splay_tree_is_a_finite_map |
| C298 attempts of the file lock | steps of one thread | induction over the attempts left |
| C299-C300 what is told of resources | ResourceSpec.v: held and limit_after over the calls and answers | induction over the calls, refinement of resource_accounting_partial |
| C301 name of the log | last name that is not empty, cut | induction over the names, refinement of set_client_ok |
| C302-C303 words in braces | decide: the first word that compares | induction over the words |

## Trusted base

* Coq 8.16.1's kernel (and `coqchk`), with `vm_compute` used only in examples
  and small table sweeps.
* Axioms: every theorem prints `Closed under the global context`, except those
  of `RandomValueProps.v` (C26 range part and C27), which use the axioms of
  Coq's `Reals`: `ClassicalDedekindReals.sig_not_dec`,
  `ClassicalDedekindReals.sig_forall_dec`,
  `FunctionalExtensionality.functional_extensionality_dep` and
  `Classical_Prop.classic`.  Flocq is used there for rounding; it adds none.
* That the transcription is faithful.  There is no extraction or translation
  tool between the C text and the model: a reader has to compare each
  definition with the lines it cites.
* The specifications: `*Spec.v` (FIPS 180-4, FIPS 197, FIPS 202, RFC 1321,
  RFC 2104, RFC 3629, RFC 4648, SP 800-38A, the Serpent and Twofish papers,
  finite maps, sequences, glob relation) and the definitions beside the
  theorems.
* The C platform: 64-bit `size_t`, 8-bit bytes, two's complement, signed
  `char`, IEEE 754 doubles evaluated in their own precision, the C locale.

## What is modelled

| file in /repo | modelled | left out |
|---|---|---|
| wizard/aes.c, chacha.c, serpent.c, twofish.c | key schedules, block functions, all tables | object life time |
| wizard/cipher.c | the five modes, padding, nonce, AcquireCipherInfo/SetCipherKey dispatch | option parsing, life time |
| wizard/md5.c, sha1.c, sha2224.c, sha2256.c, sha2384.c, sha2512.c, sha3.c, crc64.c, signature.c | initialise, update, finalise, transform | file-level signature helpers, life time |
| wizard/hash.c, hmac.c | dispatch, RFC 2104 construction, histories | life time |
| wizard/random.c | generator, reservoir, entropy assembly, pseudo random generator, double values | contents of the entropy sources (arguments) |
| wizard/key.c, keyring.c, secret.c | maps, records, import/export, crash prefixes | pass-phrase input, file opening |
| wizard/splay-tree.c, hashmap.c | all operations | semaphores, relinquish call-backs |
| wizard/string.c | StringInfo, bounded copies, LocaleCompare, strip, substitute, hex, FormatWizardTime, StringToArgv, C strings (C255) | ConfigureFileToStringInfo, FileToString |
| wizard/token.c | GlobExpression, IsGlob, GetNextToken | |
| wizard/utility.c | Base64, ParseWizardTime, path components | file helpers |
| wizard/file.c | chunked I/O, integers, the lock protocol | path selection |
| wizard/blob.c | OpenBlob, FileToBlob, streams on files, mappings and heap memory | data through pipes, zlib and bzip2 streams (the libraries are arguments) |
| wizard/memory.c | size arithmetic, virtual memory accounting, the embeddable allocator (off by default) | DestroyWizardMemory, the semaphore |
| wizard/resource.c | accounting of the five resources, ResourceComponentGenesis; the listing in SizeModel.v | |
| wizard/option.c | tables, parsing, mnemonics | listings |
| wizard/xml-tree.c | escaping, entities, parser, printer, links between elements (insert, prune, look up), ConvertUTF16ToUTF8, SetXMLTreeAttribute, GetXMLTreeAttribute, ParseInternalDoctype, GetXMLTreePath, AddPathToXMLTree, processing instructions | failing allocations |
| utilities/encipher.c, decipher.c, content.c, digest.c, cipher-info.c | chunk format, attribute packet and its settings, printing them, digest files, command lines | -bench and the timing in WizardMain |
| wizard/mime.c | GetMimeInfo, magic texts | see the row of LoadMimeCache |
| wizard/locale.c | LoadLocaleCache, ChopLocaleComponents, GetLocaleMessage | the formatting functions, listings, the search for locale files |
| wizard/exception.c | throw, inherit, catch, clear, tags | locks, formatting |
| wizard/timer.c | all operations, doubles as integers | the clocks |
| wizard/passphrase.c | GetPhrase, GetPassphrase | signals, terminal settings |
| wizard/zip.c, bzip.c, lzma.c, entropy.c | lengths, return codes, dispatch | the libraries, levels, life time |
| wizard/log.c | TranslateEvent and TranslateFilename (format loops), the file handler, ParseLogHandlers; AcquireLogCache, LoadLogCache, GetLogInfo, GetLogInfoList, GetLogList, ListLogInfo, IsEventLogging, SetLogEventMask, SetLogFormat (LogCacheModel.v) | the xml format, the console handlers, timers, locks, the status of loading |
| wizard/resource.c (files) | GetPathTemplate, AcquireUniqueFileResource, RelinquishUniqueFileResource, ResourceComponentTerminus | mkstemp, open and random bytes are arguments; modes, locks |
| wizard/configure.c | GetConfigurePaths, GetConfigureOptions, LoadConfigureCache, GetConfigureInfo, GetConfigureInfoList, GetConfigureList (and GetMimeList) | XML parsing is in the XML model; Windows registry; locks |
| wizard/semaphore.c, IsConfigureCacheInstantiated and its likes | Activate, Lock, Unlock; one step per access to memory, sequentially consistent | weak memory (the first check reads without a lock), allocation failure, Windows |
| wizard/wizard.c | Genesis, Terminus, signal handlers | locale, log mask; Windows |
| utilities/utility.c | ExpandFilename, ExpandFilenames, ListFiles | IsDirectory (an argument), logging |
| utilities/keyring.c | KeyringCommand, ExportKeyring up to the import | writing the exported key |
| wizard/authenticate.c; the setters and getters of secret.c | AuthenticateModel.v | GetPassphrase and FileToStringInfo are arguments; memory that is not freed |
| wizard/string.c (sizes), wizard/string-private.h | FormatWizardSize, InterpretSiPrefixValue, StringToDoubleInterval, PrintStringInfo; InterpretLocaleValue of locale.c and ListWizardResourceInfo of resource.c (SizeModel.v) | rounding of doubles; hexadecimal numbers, infinities and NaNs |
| wizard/mime.c (LoadMimeCache, WizardToMime, ListMimeInfo), ListConfigureInfo of configure.c | the ten attributes of an element, strtol with base 0, WizardToMime, both listings (MimeLoadModel.v, ListInfoModel.v) | failures of output; status of LoadMimeCache, which nobody uses |
| memory of objects: the functions Acquire..., Destroy... and copying setters of string.c, aes.c, chacha.c, serpent.c, twofish.c, cipher.c, crc64.c, md5.c, sha1.c, sha2*.c, sha3.c, hash.c, hmac.c, random.c, keyring.c, secret.c, authenticate.c, key.c, splay-tree.c | blocks, pointers, what is freed (ObjectModel.v) | contents but those of strings and seeds; lack of memory; errors on the way (only paths that succeed); addresses are not used again |
| threads that share an object: resource.c counters, splay-tree.c, random.c SetRandomKey and GetPseudoRandomValue, hashmap.c AppendValueToLinkedList and RemoveLastElementFromLinkedList (ThreadModel.v) | the accesses to the object and the lock, in any order of the threads | weak memory; the accesses inside one splay or one HMAC (they are under the lock, and others look at root, next, nodes only) |
| memory of XML elements: xml-tree.c NewXMLTreeTag, AddChildToXMLTree, InsertTagIntoXMLTree, PruneTagFromXMLTree, SetXMLTreeContent, SetXMLTreeAttribute, GetXMLTreeChild, DestroyXMLTree (XmlMemoryModel.v) | blocks, pointers, all five links of an element, texts and tables of attributes | what NewXMLTree adds to a root (entities, default attributes, processing instructions), removal of attributes, want of memory |
| lists of tags: xml-tree.c GetNextXMLTreeTag (XmlTagsModel.v) | on the memory of XmlMemoryModel.v | - |
| locale.c GetLocaleInfo_, GetLocaleInfoList, GetLocaleList, ListLocaleInfo (LocaleListModel.v) | on the splay tree model, with the iterator | locks; GetLocaleOptions |
| string.c AcquireString, ConstantString, CloneString, ConcatenateString, DestroyString; memory-private.h OverAllocateMemory (StringHeapModel.v) | function by function, on blocks of bytes; WizardPathExtent, the greatest size_t and whether realloc moves are parameters | failing malloc; alignment of AcquireAlignedMemory |
| client.c; utility.c GetExecutionPath; wizard.c 253-262 (ClientModel.v) | all functions, on the static buffers, also for sources inside them | systems other than Linux; a getcwd that fails leaves the buffer empty |
| xml-tree.c NewXMLTree with document types (XmlDocumentModel.v) | all of it, the entities, defaults and types declared so far are a state of the parser; the instruction <?>, whose length is -1 | conversion from UTF-16 (C134); memory (C246); a text that ends with CR, from which the loop of 1420-1426 goes on in the text behind it and changes the ends of lines there early |
| hashmap.c DestroyHashmap, relinquish methods of PutEntryInHashmap and RemoveEntryFromHashmap (HashmapOwnerModel.v) | which keys and values are relinquished, by which call | the blocks of entries, elements and buckets |
| splay-tree.c relinquish methods, the walk of DestroySplayTree and ResetSplayTree (SplayOwnerModel.v) | which keys and values are relinquished, by which call | NULL keys; DeleteNodeByValue when the value occurs in no node is the same as in SplayModel.v |
| hashmap.c ClearLinkedList, DestroyLinkedList with their relinquish method (ListOwnerModel.v) | the values in the order in which they are relinquished, the elements that are freed | semaphores |
| zip.c, bzip.c, lzma.c, entropy.c: the calls of the libraries (CoderModel.v) | their order, results, exceptions, lengths of chaos | asserts, SetStringInfoLength running out of memory |
| blob.c ReadBlobChunk, WriteBlobChunk with short and failing transfers, also of compressed streams (BlobChunkModel.v) | counts, order of bytes, errno, casts of lengths | the coding of the compressed streams |
| random.c ReadRandom, the use of its result, the estimate (GatherModel.v) | counts, casts, the fatal errors | close(2) failing (prints a NULL filename) |
| exception.c semaphores, and those of their lists (ExceptionLockModel.v) | all calls that lock, handlers that throw | locks of the log, of memory; what is in the lists (ExceptionModel.v) |
| option.c GetWizardOptions, ListWizardOptions; -list of the utilities (OptionListModel.v) | text printed, table chosen | failing writes, ListConfigureInfo |
| resource.c AsynchronousResourceComponentTerminus (TempSignalModel.v) | files, the tree, three semaphores, one thread | interrupted allocators, the log, further signals, refused resources |
| blob.c OpenBlob, CloseBlob, DetachBlob, SetBlobExtent, DestroyBlob: handles (BlobOwnerModel.v) | FILE, popen, gzip, bzip2, mmap, MapResource, semaphore, structure | bytes (BlobModel.v), Windows |
| memory.c Get/SetWizardMemoryMethods, Acquire/Resize/RelinquishWizardMemory, Acquire/ResizeQuantumMemory: which allocator gets which block (MemoryMethodsModel.v) | the three methods, owners and bytes of blocks, failing allocators | aligned and virtual memory (MemoryModel.v), the embedded allocator (PoolModel.v), reuse of addresses |
| exception.c default handlers, Set*Handler, WizardError/Warning/FatalError; exception-private.h CatchWizardException, ThrowFatalException, ThrowWizardFatalError (FatalModel.v) | lines on stderr, calls of handlers, status seen by the parent | errno messages, handlers that do not return, WIZARDSTOOLKIT_Debug |
| thread.c all functions, with thread support and without (ThreadKeyModel.v) | cells per thread and key, numbers or addresses chosen by the system | Windows variant (never compiled), limits of the system as an oracle |
| log.c CloseWizardLog and the file part of LogWizardEventList under threads (LogCloseModel.v) | any schedule of single steps, two locks, streams | one entry, texts as numbers, declaration left out, the timer |
| xml-tree.c GetXMLTreeAttributes (XmlAttributesModel.v) | splay tree of SplayModel.v keyed by texts, values as numbered copies | who frees keys and values (SplayOwnerModel.v), fatal failures of ConstantString |
| resource.c GetWizardResource, GetWizardResourceLimit (ResourceReadModel.v) | fields of ResourceModel.v, cast to unsigned | locking |
| log.c SetLogName, GetLogName (LogNameModel.v) | static buffer of E bytes, as in ClientModel.v | threads that set names at the same time |

Not modelled at all: nt-base.c,
sanitize.c, thread.c, version.c.

Everywhere: allocation failure ends the program in most of the code and is not
modelled unless a property says so; concurrency is modelled for the file lock,
the semaphores, the loading of caches and the objects of C240-C245 only.

## Findings: properties the code does not have

Each is proved of the model (theorem names ending in `_refuted`).

* Ciphers: Serpent declares a 32-byte block and enciphers 16 of them (C05);
  ChaCha's keystream block is constant per key, keys under 4 bytes are all
  equal, key bytes after 16 are ignored unless there are 32 (C03); Twofish
  ignores a key tail (C06); CTR and OFB share the keystream between messages
  (C11), also between session keys (C73).
* Hashes: SHA-224 adds seven of eight registers, so messages of 56 bytes or
  more are wrong (C16), and with it HMAC-SHA224 (C22); the SHA-2 bit count
  loses high bits in an update of 2^32 bytes (C65); SHA-3 pads as the original
  Keccak (C18), its update may never return (C19), HMAC-SHA3 uses another
  block length (C22).
* Random: nonce, reservoir and saved entropy are zero, the first entropy is
  unused (C29); /dev/urandom bytes are dropped (C69); values reach 1.0 (C27);
  a reservoir of version 1.0 cannot be read after a save (C70).
* Containers: middle insertion loses the value (C45); replacement in a sorted
  list dangles the iterator (C46); overwritten keys are counted again (C43);
  failed puts have effects (C41); lookups of other keys disturb iteration
  (C42).
* Keyring, secrets: a torn record hides later keys (C33), truncated nonces are
  exported (C34), failed writes are reported as success (C36), protocol 1.0
  imports are unreadable (C35, C71), records carry a foreign time stamp (C72),
  the session key itself is deciphered on read (C37).
* Strings: ConcatenateStringInfo appends slack bytes (C50); CopyWizardString's
  return value (C51); AsciiMap folds high bytes (C52); StripString's quotes,
  SubstituteString with an empty search (C54); glob alternatives and
  over-reads (C74, C75); ParseWizardOption on commands, negation and empty
  options (C60).
* Resources, memory, files: counters wrap at 2^63 (C57); refused requests are
  relinquished (C76); the lock is removed by failing callers (C56); a stale
  EINTR makes chunk loops endless (C68); FileToBlob overflows on pipes (C64);
  the embeddable allocator hands out blocks that are too small or aborts for
  sizes near 2^64 and just below multiples of 2 MiB (C103) and forgets its free
  blocks after 1024 segments (C104); mapped blobs are written to, SetBlobExtent moves the position, CloseBlob
  drops the flush status (C79-C81).
* Content files: padding is kept or refused at certain lengths (C58),
  truncation at chunk boundaries is not noticed (C59); the readers of
  attributes hang or write one byte too far (C83, C84), the header is not
  authenticated (C85), digest files leave files unchecked (C86), chunk sizes
  of 2^32 are cut (C96), a quote in the path makes the content unreadable (C97).
* Timestamps: offsets that are not whole hours are printed wrongly (C105); at
  Greenwich, east of it and in summer time dates do not come back (C106).
* Paths: the root directory is lost (C108), hidden files are taken for extensions
  (C109), bytes outside the buffer are read (C110).
* Tokens: an unclosed parenthesis leads past the end of the text, `url(` alone is
  written in front of the token (C113).
* Content types: masks, short numbers, patterns without a name (C114); escapes (C115).
* Locale files: slashes in texts, messages outside of groups, a second locale, comments with a parenthesis (C116).
* Exceptions: letter case, last severity, fatal handler, log events, missing tags (C118-C121).
* Stopwatch: resets (C122).
* Pass-phrases: failing terminals, long lines (C123).
* Compression: 4 GiB, lzma destinations and cut streams (C125).
* Log: thousandths (C127), injected records, sizes, unlimited (C128), handler lists (C129).
* Temporary files: place, twins in case, exhausted resource, trash (C130-C133).
* XML: UTF-16 text overruns its block by one, ASCII in UTF-16 is cut at its first zero, a second attribute or a removed one uses an unwritten slot (C134, C135).
* Configuration: cut and doubled paths, exponential includes, absolute includes, elements without names, types sorted by address (C136-C139).
* Threads and signals: with OpenMP two threads may load a cache twice, recursive locks are not noticed, the configuration is not ended, handlers lose their flags, a signal looks like an ordinary exit (C140-C144).
* Document types: an attribute list whose last attribute has a default ends the declarations, second lists are lost, a parameter entity may expand for ever (C146, C147).
* Paths: tag[n] counts children of any tag, prefixes are taken for file systems, tag[n] is never added; processing instructions are written up to three times (C150, C151, C153).
* Limits: memory limits are mebibytes taken for bytes, units are ignored, at least 64 files (C154, C155).
* Arguments: parameters of options are expanded, patterns vanish or lose files, classes at the end and patterns in the root directory do not work, - reads memory that was not written (C158).
* Command line: -key-length always sets 0, which makes every key empty and a second run with the same keyring endless; -chunksize 0 loses the content; -(de)compress, -random and capital letters are unknown (C161).
* Keyring utility: a damaged keyring stops the listing with a failed assertion; -export never works, its arguments are freed twice; -help and -list overwrite files (C164).
* Opening: names with a bar in front are run as commands, also those in digest files; compressed files are unpacked before they are enciphered (C166).
* digest: -authenticate empties the digest file it is given alone; the exit code does not tell that files have changed (C168).
* cipher-info: prints members of the file before, NULL, and 262KBB (C170).
* log.xml: a misspelt event turns on all of them, events="" is undefined; logs never have names; the listing shows wrong handlers (C172, C173).
* Authentication: a wrong pass phrase leaves a wrong key in the object; two keys made by one object share their key stream (C175).
* Sizes: prefixes for fractions are ignored; -chunksize 0 enciphers nothing and tells no one, a negative one is undefined; unlimited resources are listed as 16EiB (C178).
* Content types: an element with a negative offset aborts every lookup; numbers with escapes, unknown names and entities are misread (C227); WizardToMime answers with entries for any content and misses patterns with capitals (C229); an element without a type makes the listing crash (C231).
* Memory: destroyed keys and seeds are not wiped (C236), the pass phrase of a secret leaks (C237), setting a member to its own value reads freed memory (C238) or zeros it (C239).
* Threads: trees, lists and the pseudo-random generator are read before or without the lock (C242, C243, C245).
* XML elements: pruned elements stay in the lists of tags, or hide others (C249); roots put below others and texts without < leak (C250); an element destroyed where it is takes those behind it along (C251). Not modelled: the values of parameter entities are not given back by ParseInternalDoctype; pruning an element that is not in the lists of tags dereferences NULL.
* GetLocaleList never tells the first tag (C254).
* CloneString and ConcatenateString read the source after they resized the destination: a string given to itself is undefined (C256).
* The path of the client may be that of an earlier start, and is never the root (C259).
* XML documents: entities with markup are text, "]>" in a quoted value ends the document type (C262); <?> ends the document at its next space (XmlDocumentModel.v).
* Hash-maps: putting a key again with the same pointer frees it and keeps it; a refused put may have taken the entry (C265).
* Splay trees: adding a key again with the same pointer frees it and keeps it; the iterator keeps a key that is deleted and reads it afterwards (C269).
* Linked lists: a value inserted in the middle leaks (C271).
* Compression: zip.c and bzip.c leak the coder, with a copy of the text, of each message they fail to code (C274).
* Chunks of 2 GiB and more of compressed streams are neither read nor written (C276).
* Random: a device that cannot be read ends the program (C278); the estimate of entropy rejects nothing (C279).
* Exceptions: inheriting in both directions, from itself, or throwing in a handler deadlocks (C281).
* Options: the table of resources cannot be listed (C283).
* Signals: the handler waits for semaphores that the interrupted call holds, and misses a file not yet in the tree (C285).
* Blobs: commands, descriptors and named pipes are never closed, semaphores of failed opens leak, SetBlobExtent unmaps twice (C287).
* Memory: blocks held while SetWizardMemoryMethods is called, or acquired after a partial call, go to the wrong allocator (C289).
* Fatal errors: ThrowWizardFatalError says nothing; eleven calls give a severity for the domain (sha2*.c, lzma.c, zip.c, serpent.c); one pair ends with status 0 (C291).
* Thread keys: without thread support, which includes Windows because of a misspelt macro, all threads share one uncleared word (C293).
* Log: CloseWizardLog and LogWizardEventList lock different semaphores, so a log closed by one thread is written to by another; the text of an event is lost when the file cannot be opened (C295).
* GetXMLTreeAttributes and GetXMLTreeAttribute disagree on attributes given twice and on defaults; failures are not reported (C297).
* An area that was given back stays the area told; GetWizardResource tells bytes, not megabytes (C300).
* Glob patterns: of {jp,jpg} the word jpg is never matched (C303).
* XML: references are cut to 32 bits (C88), entity values with '&' are
  rejected and empty ones lose text (C90), elements without text are closed
  before their children and UTF-8 is encoded twice (C91), attributes without
  value crash the writer and writing an inner element may store outside its
  copy (C93), pruning loses other elements or leaves an endless list (C95).

## Mutation tests

`seeded/LOG.jsonl` has one line per seeded bug: the definition edited, the
edit, the claim it breaks, the theorems that then failed, and theorems that
were tightened because they had survived.
