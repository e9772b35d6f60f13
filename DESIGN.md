# Design

Formal model in Rocq/Coq 8.16.1 of the C core of common-cxx, read as text from /repo.

## Plan per property

- **C01** Tree behaves as a finite map from keys to nodes. Tree.v: heap-level model (node id -> parent/left/right/colour/key, sentinel id) of every function of tree.c; TreeProofs: representation predicate relating the heap to an inductive tree, BST and red-black invariants, refinement to a finite map.
- **C02** Tree stays balanced. Same model; red-black invariant gives height <= 2*log2(n+1).
- **C03** Tree iteration and count visit every node exactly once. iterate modelled as emitting node ids; shown to be a permutation of the represented nodes without duplicates.
- **C04** Tree operations terminate and never follow an invalid link. All loops are fuelled in the model and return an error when fuel runs out or a link is invalid; theorem: with fuel bounded by the tree size the error is never returned.
- **C05** A cache get returns the data the loader produced for that key. Cache.v: shard with doubly linked list, nodes, tree abstracted as finite map (justified by C01); loader is a section variable. Invariant over every operation sequence.
- **C06** A cache entry in use is never evicted or overwritten. Same invariant with ghost holder counts per node.
- **C07** Cache eviction is least recently used. Abstract LRU specification (list of idle slots ordered by release time); refinement of the pointer list.
- **C08** A cache get fails for lack of space exactly when every slot of the key's shard is in use. Consequence of slot conservation invariant.
- **C09** A created cache can serve the configured concurrency. Arithmetic on cacheShardCapacity plus C08.
- **C10** Cache shard selection always stays inside the shard array. Shard index modelled with C int semantics (abs of INT_MIN is undefined behaviour): refutation plus positive theorem outside that value.
- **C11** Cache statistics account for every get. Counters carried in the model; ghost counts of gets and loads.
- **C12** A collection returns the same item whatever its memory configuration. Collection.v: file as byte list, chain of memory head / cache / file collections built as CreateFromMemory / CreateFromFile do; theorem equates every configuration with a direct slice of the file.
- **C13** Out of range collection gets are reported and read nothing outside the collection. Same model with explicit bounds checks and 32-bit wrap.
- **C14** A failed collection get leaves the collection usable. Refuted: getFromCache does not release the node on exception; witness history plus positive theorem for histories without failures.
- **C15** Binary search finds an element if and only if it is present. BinarySearch modelled over an indexed getter with error outcome.
- **C16** Binary search reports errors distinctly from success. Refuted with a witness.
- **C17** A pool item is never handed to two users at once. Pool.v: small-step interleaving semantics (read head, read next, CAS) for any number of threads with ghost exchange counts.
- **C18** Pool items are conserved. Same invariant.
- **C19** Pool ABA counter is not sufficient for unbounded exchange windows. Refuted: explicit schedule with 65536 exchanges.
- **C20** Pool initialisation covers exactly the requested number of items. PoolInit model with 16-bit arithmetic.
- **C21** A resource in use is never freed. Resource.v: interleaving semantics of inc/dec/replace over a counter word {handle,count}; type-stable memory assumed for the reads noted in the model.
- **C22** Replaced resources are freed when the last user releases them. Sequential refinement to an abstract spec.
- **C23** Concurrent replaces do not lose a resource. Refuted by schedule; positive theorem for one replacer at a time.
- **C24** Every dotted-quad IPv4 string parses to its four bytes. Ip.v model of the parser; symbolic proof over decimal printing.
- **C25** Every IPv6 string parses to its sixteen bytes. Same for hexadecimal groups and the :: abbreviation.
- **C26** IP parsing never writes outside the address it allocates. Writes outside the allocation are a distinct outcome; refuted plus positive theorem on when it is safe.
- **C27** IP comparison is a total order on addresses of a type. Comparison loop against big-endian numeric comparison.
- **C28** The C++ IpAddress wrapper keeps the whole address. Refuted (copies 0 or 1 bytes).
- **C29** Case-insensitive comparison is a consistent ordering. Str.v model of the loops.
- **C30** Substring search reports only true occurrences. Refuted; exact characterisation of what the code returns.
- **C31** Portable float encoding round-trips. Float.v with integer arithmetic on the fields; native float taken as its IEEE bit pattern (the C code works on frexp-like arithmetic; see model).
- **C32** Headers array never overflows. Headers.v: refuted plus positive theorem.
- **C33** Unique headers are exactly the data-set names and their segments. Headers.v.
- **C34** Header lookup finds a header by any casing and by its HTTP_ form. Headers.v.
- **C35** Pseudo-header construction stays inside its buffer. Pseudo.v with explicit buffer.
- **C36** A pseudo-header value is the joined values of its segments. Pseudo.v.
- **C37** Removing pseudo evidence restores the buffers. Pseudo.v.
- **C38** Evidence iteration visits exactly the matching evidence in order. Evidence.v.
- **C39** Evidence key prefixes map uniquely. Evidence.v.
- **C40** Override values: at most one per property, last write wins. Overrides.v.
- **C41** A full override array still accepts updates. Overrides.v: refuted with witness.
- **C42** Profile ids are extracted as the maximal runs of digits. Overrides.v.
- **C43** Required properties are exactly the requested available ones. Props.v.
- **C44** Property index and name lookups are inverse. Props.v: sort and bsearch as specified by the C library, with comparison functions modelled.
- **C45** Tracked memory totals equal the live allocations. Memory.v: tracker as per-shard maps with 32-bit size field.
- **C46** A memory reader never advances past its end successfully. Memory.v.
- **C47** Aligned allocation requests a size valid for the alignment. Memory.v: refuted plus characterisation.
- **C48** YAML documents are delivered faithfully for every buffer size. Yaml.v: character automaton with buffer refills.
- **C49** YAML parsing never writes outside the pair buffers. Yaml.v: out of buffer writes are a distinct outcome; refuted.
- **C50** Text file iteration delivers every line. TextFile.v: refuted; positive theorem for files not ending in a line end and with single line ends.
- **C51** Profile iteration yields exactly the profile's values for the property. Profile.v.
- **C52** Profiles with a given value are all found. Profile.v.
- **C53** Item lists release everything exactly once. List.v.
- **C54** Required properties configuration answers consistently. ReqConfig.v: refuted for strings; positive for arrays.
- **C55** A failed reload leaves the active data set in place. Dataset.v over Resource.v's sequential model.
- **C56** Signals are not lost. Signal.v interleaving model of mutex/condition variable.
- **C57** File paths are split correctly. Paths.v; refuted for FileGetFileName without separator.
- **C58** Temp file matching compares content within its buffers. FileCmp.v; overflow of the 1024 byte buffer is a distinct outcome: refuted above 1024.

Added while the model grew (file in brackets):

- **C59, C60** every resource of a pool is freed once; the pool is lock free [Pool]. **C61, C62** handles are not used after they are freed; a get returns what was active at some moment of the call [Resource]. **C63** memory of a collection item [Item]. **C64, C65** lists of IP addresses, freeing addresses [Ip]. **C66, C67** StringCompareLength; exact value of decoded floats, equality [String, Float]. **C68** header from unique id [Headers]. **C69, C70** override properties and extraction, overriding property [Overrides]. **C71, C72** set header properties, references to names [Props]. **C73, C74** profile by id, balanced references [Profile]. **C75** DataMalloc [List]. **C76** agreement of configuration and engine on names [Req]. **C77** temp files of data sets [DataSet]. **C78-C83** temp files, copies, reading, writing and data path search [File, FileTemp]. **C84** messages of statuses and exceptions [Status]. **C85** components [Component]. **C86** the C++ evidence map [EvidenceBase]. **C87** keys and URL of an engine [EngineBase]. **C88** values of results [Results]. **C89** the configuration object [Config]. **C90** the pool of file handles [FilePool]. **C91** the files of a data set [DataSetFile]. **C92** texts that are no addresses [Ip]. **C93-C95** values by name, strings of files, coordinates [Value]. **C96, C97** memory of collections from creation to freeing [Life]. **C98-C100** memory of headers, available properties and data sets [Init]. **C101-C105** meta data, exceptions, settings and dates [Meta]. **C106-C108** memory of overrides, lists of results and components [Held]. **C109-C112** data sets stored in the bytes of a file, read through collections in any configuration [Db]. **C113-C115** the same searches on collections that change with each get and release, and what they keep; **C116** the same when reads fail [Calls]. **C117** what signals take and give back [SignalLife]. **C118** threads that search the same data set [Threads]. **C119** handles whose memory is used again [Reuse]. **C120** the cache with the mutex of each shard, step by step [Lock]. **C121** searches whose file reads overlap [Overlap]. **C122** memory tracking switched on and off [Session]. **C123** the set-up of the tracker by the first of many threads [FirstUse]. **C124** the unassigned half of the pool's exchanged word [Wide]. **C125** the resource manager built without threads [Unthreaded]. **C126** the pool built without threads [PlainPool]. **C127** overlapping gets and releases when a replace exchanges alone [Calm, over the model of Resource].

## Files

For an area X: `XModel.v` (the code), `XSpec.v` (what the properties mean, without the definitions of the model where possible), `XProofs.v` (and similar) helper lemmas, `PropertiesX.v` the property theorems, each followed by `Print Assumptions` and an `Example`. A theorem named `..._refuted` shows with a witness that the property as stated is false of the code; the other theorems of the same property say when it holds.

## Trusted base

- The Coq kernel (8.16.1), `vm_compute` included (used in examples and refutations).
- Libraries: only the Coq standard library is imported. `Print Assumptions` says "Closed under the global context" for every theorem listed in MANIFEST.json: no axioms. (Axioms that exist in the loaded standard library, such as those of Coq.ssr.ssrunder, are not used by any theorem.)
- The reading of the C code into Gallina. Each definition has a comment with the file and lines it models, or says which function of the C library or helper it is.
- Meaning given to what is outside the repository: the C library functions (strtol, atoi, strtok, snprintf, fread, ..., modelled by what the C standard or POSIX says), malloc, threads (sequentially consistent memory, one step for each access to shared memory), pthread mutex and condition variables.
- The platform: LP64, two's complement, built with threads (without in Unthreaded and PlainPool), POSIX, assertions counted as failures unless said otherwise.

## Conventions

- Unsigned arithmetic is modulo 2^16, 2^32 or 2^64 where it can matter; elsewhere the header comment says which counters are unbounded.
- Undefined behaviour (access outside memory, use after free, NULL, signed overflow) is a distinct outcome, mostly `None`. A theorem that says the result is `Some ...` therefore also says that there is none.
- Loops that are not structural have fuel; running out of fuel is an error outcome that the theorems exclude.
- Concurrency: small steps, any number of threads, any schedule.

## Modelled and not modelled

| Area | Modelled | Not modelled, simplified |
|---|---|---|
| Tree | all functions of tree.c, on a heap of nodes | one tree in each heap; int64 keys as integers |
| Cache | cache.c: get, release, creation sizes, shard selection, counters; the tree inside is TreeModel | loader is an input of each get; a get is one step under its lock (counters separately; Lock has the steps); cacheValidate; freeing is in Life |
| Lock | cache.c: get and release as steps between the lock and the unlock of a shard, the counters as loads and stores, the assert after the unlock; on the shards of Cache | a call into tree.c, a move in or out of the list and the run of the loader are one step each; memory is sequentially consistent; a lock is not fair, who gets it next is any; the lock and unlock do not fail |
| Pool | pool.c with all interleavings | the padding of the exchanged word on LP64 is in Wide; sequentially consistent |
| Wide | pool.c with the 64 bit word of pool.h: the half that is not assigned is any value at each exchange | sequentially consistent; the copy of the head is one step; resources and next as in Pool |
| Unthreaded | resource.c with FIFTYONE_DEGREES_NO_THREADING, call by call | in-use counts do not overflow int32_t; allocations succeed; assertions off |
| PlainPool | pool.c with FIFTYONE_DEGREES_NO_THREADING, call by call | PoolInit is that of Pool; the #else branches of cache.c and memory.c leave out the mutexes only and are not modelled apart |
| Resource | resource.c with all interleavings | freed handles are not handed out again (an access after free is recorded; Reuse has a heap that does); the counts are at most the users of a handle plus the threads (resource_count_in_range), so an int32 holds them below 2^31 of these |
| Reuse | the same steps, where MallocAligned gives any freed or new block and a block's handle has a resource | blocks are whole handles: the heap does not write into a freed block, nor hands it to other code; int32 count does not overflow |
| Collection | creation choices, get and release of memory, cache and file collections, binary search, item memory | failures while creating; NULL exception; partial loaderCache allocation failure; streams |
| IP | ip.c, IpAddress.cpp | malloc failing; texts of 2^30 characters |
| String, Float | StringCompare, StringCompareLength, StringSubString; float.c over the IEEE semantics of Coq.Floats.SpecFloat | powf and frexp are exact |
| Headers, Evidence, PseudoHeaders | headers.c, evidence.c, pseudoheader.c | allocation failures; NULL fields; wrap of 32 bit counters |
| Overrides | overrides.c | allocation failures; texts of 2^32 - 11 characters |
| Properties | properties.c | source methods that change their answer; allocation failures; qsort and bsearch by their specification |
| Memory | memory.c tracking and reader | failing allocation of a tracking record; the race of the first tryInit is in FirstUse |
| Session | memory.c: the four function pointers, SetUpMemoryTracking, UnsetMemoryTracking, and the calls by the pointers | the build without FIFTYONE_DEGREES_MEMORY_TRACK_ENABLED, not Windows; the pointers are assigned at once; failing allocations |
| FirstUse | memory.c: tryInit and the set-up of MemoryTrackingReset step by step, for threads | reads and writes of the flag and the totals are single steps in one order; mutex and root of a shard are set up in one step |
| TextFile, Yaml | textfile.c, yamlfile.c | read errors; unbounded counters |
| Profile | profile.c with the parts of property.c and value.c it uses | comparisons of values that are coordinates or IP addresses are any function; NULL exception |
| List, Data | list.c, data.c | |
| Req | RequiredPropertiesConfig.cpp | other users of strtok; more than 2^31 names |
| DataSet | dataset.c: get, release, reload from file and memory | resource.c functions are single steps here; members of the data set other than the temp file; engine methods do what dataset.h says |
| Signal | signals of threading.c (POSIX) | failing pthread calls; Windows |
| SignalLife | SignalCreate, SignalClose of threading.c with failing calls, over Life | a condition variable or mutex is initialised or not; a close while a thread waits (undefined in POSIX) is not modelled |
| File | file.c except the file pool: names, comparison, temp files, copies, read, write, data path | a disk is a map from paths to bytes (one path for each file, no directories as entries); random strings, process id and io errors are inputs; isFileInUse is an input; Windows |
| Status | status.c, exceptionsc.c | snprintf of %s, %i, %d only; CheckAndExit; printing NULL as %s is undefined |
| Component | component.c | the get methods of the collections are any functions; reading from file (CollectionReadFileVariable is in ItemModel) |
| EvidenceBase | EvidenceBase.cpp over EvidenceModel | the map is its list of entries by key; erase is by place; arrays never reuse a place; no failing allocation |
| EngineBase | EngineBase.cpp: keys, update URL | names are never NULL; meta data, resource manager, thread safety |
| Results | ResultsBase.cpp, Value.hpp, the exceptions they throw | the virtual methods of the engine are any functions, without exceptions of their own; strtod is any function; a name that is not available has the index -1, what the engine does with it is its own |
| Config | ConfigBase.cpp | getters are the fields; the vector's strings are any bytes; arrays never reuse a place; a failing allocation is a distinct outcome |
| FilePool | file.c: createFileHandle, setLength, FilePoolInit, FilePoolRelease, over PoolModel | a handle is the item it was opened for; each fopen, fseek, ftell and the allocation may fail; fclose is not checked, as in the source; the initialising thread runs alone |
| DataSetFile | dataset.c: InitFromFile, initWithTempFile, InitInMemory, freeing of the temp file, over FileTempModel | the rest of the data set is in DataSetModel; the disk as in FileTempModel |
| Value | value.c, string.c: StringRead, coordinate.c, over SearchModel, IpModel, FloatModel and CollectionModel | (float)atof is any function that ends at a comma (the C locale); the get methods of the collections are any functions |
| Life | collection.c: the create and free functions of all collections with their allocations, the loader of the cache; cache.c: creation and freeing; over ItemModel | which call fails is an input, item contents are not modelled (Collection has them); a load of any cache node at any time stands for the gets; sizes of structures are any numbers |
| Init | headers.c, properties.c, dataset.c: creation and freeing of the headers, the available properties and the members of a data set, with the statuses; over ItemModel and HeadersModel | which call fails is an input; names are read from file collections; the choice of properties is an input (Properties has it) and qsort any reordering that uses each name when there are two or more; the file pool is in FilePool |
| Meta | ValueMetaData.cpp, ProfileMetaData.cpp, ComponentMetaData.cpp, PropertyMetaData.cpp, EntityMetaData.hpp, MetaData.cpp and EntityMetaDataBuilder.hpp getString, Exceptions.cpp, CollectionConfig.cpp, Date.cpp, bool.c; over Item, Life and Status | std::string is a value; strings are read from file collections; little endian |
| Held | overrides.c, list.c, component.c: the memory of override values, of lists with items of files and of overrides, and of the list of components; over Item and Life | texts are lengths (Overrides has them); the callback that lists values is the engine's; sizes of structures are those of 64 bit machines |
| Db | the structures of property.h, value.h, profile.h and string.h in bytes, headers of collections (collection.c), and property.c, value.c, profile.c on top of the collections of Collection and the functions of Profile | little endian and packed; unaligned words can be read (the values of a profile start at an odd offset); a get does not change what later gets of the same call give: each answer is that of some state of the collection (all states give the same bytes); exceptions are not NULL |
| Calls | property.c: PropertyGetByName, PropertyGetValueType; value.c: ValueGetIndexByName, ValueGetByName; profile.c: ProfileIterateProfilesForPropertyAndValue, ProfileGetOffsetForProfileId, ProfileGetByProfileId, ProfileGetByIndex, with the collections, the heap, the free file handles and the failing reads as state; over Collection, Item and Db | one thread (Threads has several); a collection's own memory is not on the heap (Life has it); which handle, allocation, seek or read fails is an input |
| Threads | the functions of Calls cut into steps at every get, release and count, run by any number of threads in any order over one world | a get is one step, as under the lock of a cache shard (Overlap has reads that overlap); bytes are decoded when they are got (that an item kept is unchanged is in Held and Collection); no read fails |
| Overlap | the threads of Threads, where a get that reads from the file is two steps: it takes a file handle and the mutex of the shard, then it has read and gives them back | the other gets, releases and counts are one step; a handle is taken once the mutex is, and both are given back together; who gets a mutex next is any; bytes are decoded when they are got |

Not modelled at all: the C++ classes other than those in the table, results.c, the SWIG interfaces, tests and performance tools.

## Findings

Each is shown by a theorem named in MANIFEST.json unless marked (read), which means noticed while reading and not modelled.

- **cache.c**: shard selection is undefined for hashes with low word INT_MIN; capacities of 2^31 slots overflow int32; counters shared by shards are updated without a common lock, so two misses can count as one (`lock_counters_refuted`, C11 and C120). The assert of get reads activeCount after the unlock, while another thread may be writing it (`lock_assert_race_refuted`; the value read is never 0, `lock_never_stuck`). (read) without an exception a failed load is stored as data.
- **pool.c**: the 16 bit ABA counter allows an item to be handed out twice after 65536 exchanges; concurrency 65535 wraps to an empty pool; on LP64 `volatile long exchange` is 64 bits wide and half of it is never assigned in `next`: harmless when copying the head copies all 64 bits (`wide_serial`), but C leaves those bits unspecified in the copy, and then a lone get can retry without end (`wide_lost_refuted`).
- **resource.c**: reading a handle and counting a use can touch freed memory; a get can return NULL; two overlapping replaces lose a resource; setupResource uses a NULL handle.
- **C119** (`reuse_active_freed_refuted`): a release that counted down to zero reads manager->active and then exchanges the counter (0, handle) for (0, NULL). If meanwhile the handle was freed by a replace and the next replace got its block for the new handle, the exchange succeeds on the new handle, whose resource is freed and then made active. No freed memory is accessed before that and no replaces overlap. What stays true with any reuse: no resource is freed while held, nor twice (`reuse_held_not_freed`). All of C119 holds when a block is not handed out while a thread has a pointer to it.
- **collection.c**: each failed get of a cached collection leaks a slot (so after reads overlapped without enough file handles a lone call can return a wrong answer with no exception, `overlap_few_handles_refuted`, C121); a full cache returns NULL without status; index 2^31 is undefined; a wrong variable offset reads past the region; search returns 0 on errors and never ends for the upper bound 2^32 - 1; an index of an empty collection in memory is reported as an offset; the header of a file that ends before it is not set, a position from 4 gigabytes on wraps, and so does the length of a count that is too large, after which indexes are offsets; after a failed read the item keeps a freed pointer; a failed get makes a later release leak; a cache that cannot be made leaks its source; the creation functions use NULL when memory is short or, before loading a part, when the file cannot be skipped. (read) loaderCache's own allocation failure caches an empty node; an item copied from a cache node and reused with a file collection overwrites the node; iterateCollection releases an uninitialised item for an empty collection.
- **ip.c, IpAddress.cpp**: texts that are no addresses are parsed, numbers are cut or wrap and missing bytes are not set; more than four (IPv4) or eight (IPv6) parts write past the address; free gets an interior pointer; getCopyOfIpAddress copies 0 or 1 bytes.
- **string.c**: StringSubString finds text at the end that only begins like the searched one and never finds the empty one; StringCompareLength passes both terminators.
- **float.c**: small subnormals, minus infinity, minus zero and IEEE infinity/NaN patterns do not round-trip.
- **headers.c**: a one-part name with leading or trailing separator writes past the array; one character HTTP_X names are not stripped; id 0 is ambiguous; an allocation failure for a header of the data set leaks its name and the item. (read) a NULL name has index 0.
- **pseudoheader.c, evidence.c**: the array sized by pseudoHeadersCount can be overrun; a truncated value is added though a later segment is missing.
- **overrides.c**: a full array drops updates and the return value does not say so; values are cut to int16 sizes; ids of 2^31 and more are lost; memory missing for a text is written to; a longer value for a property, or one for another after a reset, frees memory that lists still refer to.
- **properties.c**: names equal ignoring case get the first index; sort (unsigned) and search (signed) disagree for other than ASCII; beginnings of "SetHeader" count as set header properties; with two or more properties a name that cannot be read is used by the sort, and one whose read failed is used after it was freed.
- **memory.c**: reset does not clear the records; sizes are cut to 32 bits; failed allocations are tracked as address 0; MemoryAdvance accepts amounts that wrap; aligned sizes are wrong except for residues 0 and a/2. A block allocated with tracking off and freed with tracking on has no record (`session_early_refuted`); a record stays when its block is freed with tracking off, and the same address in a later session is an assert (`session_late_refuted`); a block of an earlier session freed in a later one hides a leak of as many bytes (`session_old_refuted`); calls in progress when tracking is switched count in the next session (`session_progress_refuted`). Two threads that use the tracker first both set it up, and the second throws away the records of the first (`first_use_race_refuted`) or the totals (`first_use_late_refuted`); only MemoryTrackingReset before the threads start avoids it. (read) with FIFTYONE_DEGREES_MEMORY_TRACK_ENABLED the pointer is defined as `fiftyoneDegreessMallocAligned`, so fiftyoneDegreesMallocAligned has no definition.
- **textfile.c**: lines are lost or buffer[-1] is read when the text after an end of line has the length of the buffer; an empty file reads buffer[-1]; CRLF split by the buffer gives an extra line.
- **yamlfile.c**: limit 0 delivers a document; a document with all pairs uses pairs[size]; "---:" uses pairs[-1]; a value that is one quote reads before its buffer; an empty file delivers an empty pair.
- **profile.c**: the word after a profile is read; the profiles are released with the method of the profile offsets, so that with unlike collections memory, file handles or cache nodes are kept, profiles are missed or it is undefined; a failed read costs a file handle for each later profile; a profile offset that cannot be read while a profile is searched by its id is used all the same (ProfileGetOffsetForProfileId, a null or freed pointer); unreadable names or offsets give NULL or stale pointers.
- **property.c**: PropertyGetByName releases names with the method of the properties, so that with a cache of strings and properties in memory another property is returned; a name that cannot be read keeps the property; with a full cache a property that is there is not found, without an exception.
- **data.c, list.c**: DataMalloc of 0 or 2^32 bytes forgets its block; a failed ListInit leaves a count that is not set; resetting a list in use leaks.
- **RequiredPropertiesConfig.cpp**: queries cut the stored string; the count is that of commas; separators differ from those of properties.c.
- **dataset.c**: missing memory for the properties is reported as REQ_PROP_NOT_PRESENT and for the headers as CORRUPT_DATA; a data set that was only reset cannot be freed, as its configuration is NULL; initialising twice leaks; overlapping reloads use the properties of a freed data set; a temp file used again is deleted with the old data set; copies in all but the last temp directory are left; a temp file used again may differ from the master after the bytes compared.
- **threading.c**: a signal is created set; two sets may release one waiter; SignalClose does not free the signal; a condition variable is not destroyed when the mutex cannot be initialised. (read) The code is compiled without threads when FIFTYONE_DEGREES_NO_THREADING is defined at all, but ThreadingGetIsThreadSafe also looks at its value, so with a value of 0 it answers true for code that is not thread safe.
- **several threads**: with caches made for one item, while one thread keeps a property another does not find the others and reads type 0 for them, with no exception set, so a caller cannot tell it from a property that is not there. Right when calls running and items kept together are at most the concurrency of each cache.
- **file.c**: FileGetFileName loses the first character of a path without separator; FileGetBaseName is NULL for paths with '/'; getBasenameWithoutExtension fails for files without extension in a directory with a dot; comparing more than 1024 bytes overflows; an empty file equals any; only paths[0] is searched; the working directory is never searched on POSIX; the count of deleted files is a byte; a copy onto itself empties the file; read and close errors are successes; NewTempFile copies into each path and reports the last; a buffer as long as the path is overflowed; empty files cannot be read or written; the root is not searched for the data file. FilePoolInit leaves opened handles open when it fails, takes a length of -1 for a success, and without an exception delivers pools with unreachable handles or reads through NULL. (read) isFileInUse writes linkPath[4096].
- **status.c, exceptionsc.c**: a number of more than 7 characters cuts the end of the default text; memory that could not be allocated is written to; FILE_BUSY and NOT_SET have no text; a NULL file or function is printed.
- **component.c**: the index that is the count of key value pairs is accepted; a get method that returns NULL without an exception is asked for ever; without memory for the list the exception is okay.
- **EvidenceBase.cpp**: a copy of the object shares the array, which is freed twice.
- **EngineBase.cpp**: a header with an empty name gives the keys `header.` and `query.`, which evidence refuses.
- **ResultsBase.cpp, Value.hpp**: a value with a bar cannot be told from two values; a text that is no number is the int 0, a number that is no int is undefined; the engine's message is lost for NO_MATCHED_NODES and NULL_PROFILE. FatalException never sets its status code.
- **MetaData.cpp, Exceptions.cpp**: the end of a stored string is not checked; InvalidPropertyException uses a NULL message; value keys are ordered from the last to the first.
- **ConfigBase.cpp**: setting the temp directories twice leaks the first array; the array is written to without a check of the allocation.
- **value.c, string.c, coordinate.c**: ValueGetIndexByName releases an item that was never set when the property has no values; without memory for the address asked for every address equals it; address texts with too few or too many numbers use memory that is not set or not there; a size of 0 compares -1 bytes; a full cache gives index 0 and the value of another name; negative string sizes allocate less than the size bytes; the size of a coordinate is not tested.
