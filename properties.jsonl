{"id": "C01", "title": "Tree behaves as a finite map from keys to nodes", "statement": "Starting from an initialised root, after any sequence of inserts (of keys not present at that moment) and deletes of nodes that are present, finding a key returns exactly the node that was inserted under that key and not deleted since, and returns nothing for every other key. No insert or delete disturbs any other key.", "quantifier": "every finite sequence of insert/delete operations over any set of nodes, every key looked up", "why_tests_cant": "The rotations and the colour repairs have many shapes, some reached only after long particular histories; tests sample a few histories.", "anchors": ["tree.c: fiftyoneDegreesTreeInsert, fiftyoneDegreesTreeDelete, fiftyoneDegreesTreeFind, insertRepair, deleteRepair, rotateLeft, rotateRight, successor"]}
{"id": "C02", "title": "Tree stays balanced", "statement": "After any sequence of inserts and deletes the longest path from the root to a node has at most 2*log2(n+1) nodes, where n is the number of nodes in the tree, so find, insert and delete visit a logarithmic number of nodes whatever the history.", "quantifier": "every finite sequence of inserts and deletes", "why_tests_cant": "Balance is a bound over every history; a broken repair case shows only as slowness after an adversarial history.", "anchors": ["tree.c: insertRepair, deleteRepair, fiftyoneDegreesTreeInsert, fiftyoneDegreesTreeDelete"]}
{"id": "C03", "title": "Tree iteration and count visit every node exactly once", "statement": "Iterating a tree calls the callback exactly once for every node currently present and for no other node, and the count equals the number of nodes present.", "quantifier": "every tree reachable by any sequence of inserts and deletes", "why_tests_cant": "Requires all reachable tree shapes, not a sample.", "anchors": ["tree.c: fiftyoneDegreesTreeIterateNodes, fiftyoneDegreesTreeCount, iterate"]}
{"id": "C04", "title": "Tree operations terminate and never follow an invalid link", "statement": "On a tree reached by any history of inserts and deletes, find, insert and delete finish, and every node they read or write is either in the tree, the node being inserted, or the sentinel.", "quantifier": "every reachable tree, every key or node operated on", "why_tests_cant": "Non-termination or a stray write would be triggered only by particular shapes.", "anchors": ["tree.c: fiftyoneDegreesTreeFind, fiftyoneDegreesTreeInsert, fiftyoneDegreesTreeDelete, successor"]}
{"id": "C05", "title": "A cache get returns the data the loader produced for that key", "statement": "For every history of gets and releases, a successful get for a key returns an entry whose key is the requested key and whose data is what the loader returns for that key, whether it was loaded now or earlier.", "quantifier": "every sequence of gets and releases, every key, every capacity and shard count", "why_tests_cant": "Stale or cross-wired entries only appear after particular eviction histories.", "anchors": ["cache.c: fiftyoneDegreesCacheGet, cacheLoad, cacheGetNextFree, fiftyoneDegreesCacheRelease"]}
{"id": "C06", "title": "A cache entry in use is never evicted or overwritten", "statement": "From the moment a get returns an entry until the matching release, no other get reuses the entry's slot for a different key, and further gets of the same key during that time return that same entry.", "quantifier": "every history of gets and releases by any number of users", "why_tests_cant": "An eviction of an item in use is a use-after-free that depends on the whole history.", "anchors": ["cache.c: cacheGetNextFree, cacheRemoveFromList, cacheIncremenetCheckAndRemove, fiftyoneDegreesCacheRelease"]}
{"id": "C07", "title": "Cache eviction is least recently used", "statement": "When a miss needs a slot, the entry evicted is the idle entry whose last release is the oldest (never-used slots first); no other cached key is lost, so a key released more recently than the evicted one remains a hit.", "quantifier": "every history of gets and releases in a shard", "why_tests_cant": "The order is a property of the complete history; pointer slips in the doubly linked list show up only in specific orders.", "anchors": ["cache.c: cacheAddToHead, cacheRemoveFromList, cacheGetNextFree, fiftyoneDegreesCacheRelease"]}
{"id": "C08", "title": "A cache get fails for lack of space exactly when every slot of the key's shard is in use", "statement": "A get of an absent key reports INSUFFICIENT_CAPACITY (returns nothing without calling the loader) if and only if all slots in that key's shard are held by users; a get of a cached key never fails. Slots are neither lost nor duplicated by any history of gets and releases.", "quantifier": "every history of successful loads and releases", "why_tests_cant": "Slot conservation is an invariant of all histories.", "anchors": ["cache.c: fiftyoneDegreesCacheGet, cacheLoad, cacheGetNextFree"]}
{"id": "C09", "title": "A created cache can serve the configured concurrency", "statement": "If creation succeeds then every shard has at least `concurrency` slots, the total number of slots is at least the requested capacity, and as long as at most `concurrency` entries are held at once no get is ever refused for lack of space. Creation is refused when concurrency is zero or capacity is below concurrency squared.", "quantifier": "every capacity and concurrency, every history holding at most concurrency entries", "why_tests_cant": "Relates arithmetic in the constructor to all histories.", "anchors": ["cache.c: fiftyoneDegreesCacheCreate, cacheShardCapacity, cacheInit, cacheInitShard"]}
{"id": "C10", "title": "Cache shard selection always stays inside the shard array", "statement": "For every 64-bit key hash the shard selected is one of the cache's shards, and the same key always selects the same shard.", "quantifier": "every key hash value and every shard count", "why_tests_cant": "Only one 32-bit pattern misbehaves (2^31); random tests do not hit it.", "anchors": ["cache.c: fiftyoneDegreesCacheGet, fiftyoneDegreesCacheHash32, fiftyoneDegreesCacheHash64"]}
{"id": "C11", "title": "Cache statistics account for every get", "statement": "After any history, hits equals the number of gets served without calling the loader, misses equals the number of all other gets (those that called the loader, successfully or not, and those refused because the shard was full), and together they count every get.", "quantifier": "every history of gets and releases", "why_tests_cant": "A counting claim over histories.", "anchors": ["cache.c: fiftyoneDegreesCacheGet, cacheLoad"]}
{"id": "C12", "title": "A collection returns the same item whatever its memory configuration", "statement": "For a data file and any valid index (fixed width items) or offset (variable width items), the bytes returned are the same whether the collection is fully in memory, partially loaded with any loaded amount, cached with any capacity, or read straight from file, after any previous history of gets.", "quantifier": "every file content, every loaded/capacity/concurrency configuration, every index or offset, every previous get", "why_tests_cant": "The configuration space times the file contents is unbounded; off-by-one at the boundary between loaded head and file tail is invisible to sampling.", "anchors": ["collection.c: getMemoryFixed, getMemoryVariable, getPartialFixed, getPartialVariable, getFile, getFromCache, fiftyoneDegreesCollectionCreateFromMemory, fiftyoneDegreesCollectionCreateFromFile, fiftyoneDegreesCollectionReadFileFixed, readFileVariable"]}
{"id": "C13", "title": "Out of range collection gets are reported and read nothing outside the collection", "statement": "A get whose index is not less than the item count, or whose offset is not less than the byte size, returns NULL with an out of range status, and a successful get never returns bytes that lie outside the collection's region of the file.", "quantifier": "every collection configuration, every 32-bit index or offset", "why_tests_cant": "Boundary values for every size, including 32-bit wrap-around.", "anchors": ["collection.c: getMemoryFixed, getMemoryVariable, fiftyoneDegreesCollectionReadFileFixed, fiftyoneDegreesCollectionReadFilePosition, readFileVariable"]}
{"id": "C14", "title": "A failed collection get leaves the collection usable", "statement": "After any number of gets that fail (bad index or failed read) on a cached collection, valid gets still succeed and return the right item.", "quantifier": "every history mixing failing and succeeding gets", "why_tests_cant": "A leak per failure only shows after as many failures as there are slots.", "anchors": ["collection.c: getFromCache, cache.c: cacheLoad, fiftyoneDegreesCacheRelease"]}
{"id": "C15", "title": "Binary search finds an element if and only if it is present", "statement": "On a sorted collection and any lower/upper bounds inside it, the search terminates, returns the index of an element that compares equal if there is one between the bounds, and otherwise returns -1; it only reads items between the bounds.", "quantifier": "every sorted sequence, every pair of bounds, every sought key", "why_tests_cant": "Off-by-one at bounds for every length and position.", "anchors": ["collection.c: fiftyoneDegreesCollectionBinarySearch"]}
{"id": "C16", "title": "Binary search reports errors distinctly from success", "statement": "If reading an item fails during the search the result cannot be mistaken for a valid index.", "quantifier": "every collection and every failing read position", "why_tests_cant": "Needs fault injection at every step.", "anchors": ["collection.c: fiftyoneDegreesCollectionBinarySearch, profile.c: fiftyoneDegreesProfileGetOffsetForProfileId"]}
{"id": "C17", "title": "A pool item is never handed to two users at once", "statement": "Under every interleaving of threads getting and releasing items, an item returned by a get is not returned by any other get until it is released, provided fewer than 65536 successful exchanges happen between one thread's read of the head and its exchange.", "quantifier": "every number of threads, every pool size, every interleaving of the individual atomic steps", "why_tests_cant": "The failing schedules are rare interleavings that stress tests cannot enumerate.", "anchors": ["pool.c: fiftyoneDegreesPoolItemGet, fiftyoneDegreesPoolItemRelease"]}
{"id": "C18", "title": "Pool items are conserved", "statement": "In every interleaving each item is at all times either free, held, or in the hands of exactly one thread performing get or release; a get reports INSUFFICIENT_HANDLES only if at some moment during the call no item was free; once all threads are idle and all items released, every item is available again.", "quantifier": "every number of threads, every interleaving", "why_tests_cant": "Lost items are a property of all schedules.", "anchors": ["pool.c: fiftyoneDegreesPoolItemGet, fiftyoneDegreesPoolItemRelease, fiftyoneDegreesPoolInit"]}
{"id": "C19", "title": "Pool ABA counter is not sufficient for unbounded exchange windows", "statement": "Without a bound on the number of exchanges between one thread's read and its compare-and-exchange, no item is handed out twice.", "quantifier": "every interleaving, without the bound of C17", "why_tests_cant": "Needs 65536 exchanges inside one thread's window.", "anchors": ["pool.c: fiftyoneDegreesPoolItemGet (aba 16 bit counter in pool.h)"]}
{"id": "C20", "title": "Pool initialisation covers exactly the requested number of items", "statement": "A pool created with concurrency c lets exactly c items be held at once, each item distinct, for every 16-bit c.", "quantifier": "every concurrency value 1..65535", "why_tests_cant": "The extreme value 65535 wraps; tests use small values.", "anchors": ["pool.c: fiftyoneDegreesPoolInit, fiftyoneDegreesPoolFree"]}
{"id": "C21", "title": "A resource in use is never freed", "statement": "Under every interleaving of use, release and replace, a resource is never freed while a user who obtained it has not released it, and is never freed twice.", "quantifier": "every number of threads and every interleaving of the atomic steps", "why_tests_cant": "Reference count races are schedule dependent.", "anchors": ["resource.c: fiftyoneDegreesResourceHandleIncUse, fiftyoneDegreesResourceHandleDecUse, fiftyoneDegreesResourceReplace"]}
{"id": "C22", "title": "Replaced resources are freed when the last user releases them", "statement": "For every history of single-threaded operations: after a replace, new users receive the new resource, the old resource is freed exactly once, immediately if it had no users, otherwise at the release of its last user, and the active resource is freed only by freeing the manager.", "quantifier": "every sequence of use, release, replace and manager free operations", "why_tests_cant": "Every order of releases relative to replaces.", "anchors": ["resource.c: fiftyoneDegreesResourceReplace, fiftyoneDegreesResourceHandleDecUse, fiftyoneDegreesResourceManagerFree, fiftyoneDegreesResourceManagerInit"]}
{"id": "C23", "title": "Concurrent replaces do not lose a resource", "statement": "If two threads replace the resource concurrently, then when both have finished one of the two new resources is active and every other resource is freed or still in use.", "quantifier": "every interleaving of two or more replaces", "why_tests_cant": "Requires a specific interleaving between read and exchange.", "anchors": ["resource.c: fiftyoneDegreesResourceReplace, threading.h: FIFTYONE_DEGREES_INTERLOCK_EXCHANGE_PTR"]}
{"id": "C24", "title": "Every dotted-quad IPv4 string parses to its four bytes", "statement": "For all a,b,c,d in 0..255 the text a.b.c.d (decimal, no padding) parses to an IPv4 address with bytes a,b,c,d.", "quantifier": "all 2^32 IPv4 addresses", "why_tests_cant": "2^32 inputs.", "anchors": ["ip.c: fiftyoneDegreesIpParseAddress, iterateIpAddress, callbackIpAddressBuild, getIpByte"]}
{"id": "C25", "title": "Every IPv6 string parses to its sixteen bytes", "statement": "For any eight 16-bit groups, written in hexadecimal with or without leading zeros, with any single run of zero groups abbreviated by ::, the text parses to an IPv6 address with those sixteen bytes in network order.", "quantifier": "all IPv6 addresses and all positions/lengths of the abbreviated run", "why_tests_cant": "2^128 inputs times abbreviations.", "anchors": ["ip.c: fiftyoneDegreesIpParseAddress, parseIpV6Segment, callbackIpAddressCount, callbackIpAddressBuild"]}
{"id": "C26", "title": "IP parsing never writes outside the address it allocates", "statement": "For every input text, parsing either fails or writes only inside the 4 or 16 bytes of the address.", "quantifier": "every byte string", "why_tests_cant": "Malformed inputs are unbounded.", "anchors": ["ip.c: fiftyoneDegreesIpParseAddress, iterateIpAddress, callbackIpAddressBuild, mallocIpAddress"]}
{"id": "C27", "title": "IP comparison is a total order on addresses of a type", "statement": "Comparing two addresses of the same type gives the sign of their numeric (big-endian) comparison: zero only for equal addresses, antisymmetric and transitive.", "quantifier": "all pairs and triples of addresses of either type", "why_tests_cant": "Quadratic in 2^128.", "anchors": ["ip.c: fiftyoneDegreesCompareIpAddresses"]}
{"id": "C28", "title": "The C++ IpAddress wrapper keeps the whole address", "statement": "Constructing the wrapper from an address and type gives back all 4 or 16 bytes.", "quantifier": "every address", "why_tests_cant": "Behaviour for every byte content.", "anchors": ["IpAddress.cpp: IpAddress, getCopyOfIpAddress"]}
{"id": "C29", "title": "Case-insensitive comparison is a consistent ordering", "statement": "StringCompare returns 0 exactly when the strings are equal ignoring ASCII case, is antisymmetric and transitive, so it is usable for sorting and bsearch.", "quantifier": "all pairs/triples of NUL-terminated ASCII strings", "why_tests_cant": "All strings.", "anchors": ["string.c: fiftyoneDegreesStringCompare, fiftyoneDegreesStringCompareLength"]}
{"id": "C30", "title": "Substring search reports only true occurrences", "statement": "StringSubString returns the first position at which the second string occurs in the first ignoring case, and NULL if it occurs nowhere.", "quantifier": "all pairs of strings", "why_tests_cant": "All strings; partial match at the end of the text is a corner case.", "anchors": ["string.c: fiftyoneDegreesStringSubString"]}
{"id": "C31", "title": "Portable float encoding round-trips", "statement": "Encoding a native float and decoding it gives the same value, and decoding then re-encoding gives the same bytes.", "quantifier": "all 2^32 float bit patterns", "why_tests_cant": "2^32 patterns and special classes (zeros, subnormals, infinities, NaN).", "anchors": ["float.c: fiftyoneDegreesFloatToNative, fiftyoneDegreesNativeToFloat"]}
{"id": "C32", "title": "Headers array never overflows", "statement": "Creating the unique headers for any list of data-set header names writes no more entries than were allocated.", "quantifier": "every list of header names, including names containing separators anywhere", "why_tests_cant": "The allocation count and the fill use different code; only special separator placements differ.", "anchors": ["headers.c: fiftyoneDegreesHeadersCreate, countAllSegments, countHeaderSegments, addHeadersFromDataSet, addHeadersFromSegments"]}
{"id": "C33", "title": "Unique headers are exactly the data-set names and their segments", "statement": "After creation the headers contain, without case-insensitive duplicates, exactly the data-set header names and all their non-empty segments; data-set headers keep their unique id and order; the pseudo-header count equals the number of multi-segment headers.", "quantifier": "every list of header names in which no single-segment name carries a leading or trailing separator", "why_tests_cant": "All lists of names.", "anchors": ["headers.c: fiftyoneDegreesHeadersCreate, createSegmentArray, getHeaderIndex, addHeadersFromDataSet, addHeadersFromSegments"]}
{"id": "C34", "title": "Header lookup finds a header by any casing and by its HTTP_ form", "statement": "HeaderGetIndex returns an index whose name equals the requested name ignoring case (after removal of the HTTP_ prefix when upper prefixed headers are expected) if and only if one exists, else -1.", "quantifier": "every headers array and every requested name", "why_tests_cant": "All names; prefix length corner cases.", "anchors": ["headers.c: fiftyoneDegreesHeaderGetIndex"]}
{"id": "C35", "title": "Pseudo-header construction stays inside its buffer", "statement": "For every buffer size and evidence values, constructing pseudo evidence writes only inside the buffer and leaves it NUL terminated.", "quantifier": "every buffer size, evidence list and pseudo header", "why_tests_cant": "All sizes against all total lengths.", "anchors": ["pseudoheader.c: constructPseudoEvidence, fiftyoneDegreesPseudoHeadersAddEvidence"]}
{"id": "C36", "title": "A pseudo-header value is the joined values of its segments", "statement": "If all segments of a pseudo header are present in evidence of the chosen prefix and the result fits, the value added is the segment values in order joined by the separator; if any segment is missing nothing is added; evidence already supplied for the pseudo header suppresses construction, and earlier prefixes take precedence.", "quantifier": "every header set, evidence list and prefix order", "why_tests_cant": "Combinations of prefixes, segments and supplied evidence are unbounded.", "anchors": ["pseudoheader.c: fiftyoneDegreesPseudoHeadersAddEvidence, constructPseudoEvidence, isEvidencePresentForHeader, getEvidenceValueForHeader"]}
{"id": "C37", "title": "Removing pseudo evidence restores the buffers", "statement": "After RemoveEvidence every buffer taken from the pseudo evidence array is returned, cleared and available for the next request, so any number of add/remove rounds behaves identically.", "quantifier": "every number of rounds", "why_tests_cant": "Unbounded histories.", "anchors": ["pseudoheader.c: fiftyoneDegreesPseudoHeadersRemoveEvidence, fiftyoneDegreesPseudoHeadersAddEvidence"]}
{"id": "C38", "title": "Evidence iteration visits exactly the matching evidence in order", "statement": "Iterating evidence with a set of prefixes calls back, in insertion order and stopping at the first refusal, exactly the entries whose prefix is in the set, with the returned count equal to the number of callbacks; adding beyond the capacity adds nothing and changes nothing.", "quantifier": "every evidence array, pseudo evidence array and prefix set", "why_tests_cant": "All combinations of prefixes and refusals.", "anchors": ["evidence.c: fiftyoneDegreesEvidenceAddString, fiftyoneDegreesEvidenceIterate, evidenceIterateSub"]}
{"id": "C39", "title": "Evidence key prefixes map uniquely", "statement": "A key of the form prefix.field (header, server, query, cookie) maps to that prefix and the remainder is the field; any other key maps to no prefix; formatting a prefix and mapping it back gives the same prefix.", "quantifier": "every key string", "why_tests_cant": "All strings.", "anchors": ["evidence.c: fiftyoneDegreesEvidenceMapPrefix, fiftyoneDegreesEvidencePrefixString"]}
{"id": "C40", "title": "Override values: at most one per property, last write wins", "statement": "After any sequence of override additions that does not exceed the capacity, each overridden property has exactly one value, the last one added, and the stored count never exceeds the capacity.", "quantifier": "every sequence of additions and resets", "why_tests_cant": "Histories of additions.", "anchors": ["overrides.c: fiftyoneDegreesOverridesAdd, addOverrideToResults, fiftyoneDegreesOverrideHasValueForRequiredPropertyIndex, fiftyoneDegreesOverrideValuesReset"]}
{"id": "C41", "title": "A full override array still accepts updates", "statement": "Updating a property that already has an override replaces its value even when the array is full, and the return value tells whether the value was stored.", "quantifier": "every capacity and history", "why_tests_cant": "Needs exactly full arrays.", "anchors": ["overrides.c: fiftyoneDegreesOverridesAdd"]}
{"id": "C42", "title": "Profile ids are extracted as the maximal runs of digits", "statement": "OverrideProfileIds calls back once, in order, for each maximal run of decimal digits in the value, with the number it denotes.", "quantifier": "every evidence string whose numbers fit", "why_tests_cant": "All strings.", "anchors": ["overrides.c: extractProfileIds, extractProfileId, fiftyoneDegreesOverrideProfileIds"]}
{"id": "C43", "title": "Required properties are exactly the requested available ones", "statement": "For a property list given as a separated string or an array, the available properties are exactly the data-set properties whose names are requested (ignoring case), each once, sorted; unknown names are ignored; an empty request gives all properties.", "quantifier": "every request string/array and every data-set property list", "why_tests_cant": "All strings and lists.", "anchors": ["properties.c: fiftyoneDegreesPropertiesCreate, iteratePropertiesFromString, iteratePropertiesFromArray, initRequiredProperties"]}
{"id": "C44", "title": "Property index and name lookups are inverse", "statement": "For each available property, looking up its name (any case) gives its index, and looking up the index gives its name; names not available give -1.", "quantifier": "every set of available properties with ASCII names, every name", "why_tests_cant": "All name sets; depends on sort and search agreeing.", "anchors": ["properties.c: fiftyoneDegreesPropertiesGetRequiredPropertyIndexFromName, fiftyoneDegreesPropertiesGetNameFromRequiredIndex, fiftyoneDegreesPropertiesGetRequiredPropertyIndexFromPropertyIndex"]}
{"id": "C45", "title": "Tracked memory totals equal the live allocations", "statement": "After any sequence of tracked allocations and frees the reported allocated total equals the sum of the sizes of blocks not yet freed, and the reported maximum is the largest total so far.", "quantifier": "every history of allocations and frees, sizes below 2^32", "why_tests_cant": "All histories, all shards.", "anchors": ["memory.c: fiftyoneDegreesMemoryTrackingMalloc, fiftyoneDegreesMemoryTrackingFree, trackAllocation, untrackAllocation, fiftyoneDegreesMemoryTrackingGetAllocated, fiftyoneDegreesMemoryTrackingGetMax"]}
{"id": "C46", "title": "A memory reader never advances past its end successfully", "statement": "Advance returns true only if the new position is inside the memory, and a sequence of successful advances moves by exactly the sum of the requested amounts.", "quantifier": "every memory size and every sequence of advances", "why_tests_cant": "All sequences.", "anchors": ["memory.c: fiftyoneDegreesMemoryAdvance"]}
{"id": "C47", "title": "Aligned allocation requests a size valid for the alignment", "statement": "The size requested for an aligned allocation is a multiple of the alignment and at least the requested size.", "quantifier": "every size and power of two alignment", "why_tests_cant": "All sizes; only some residues are wrong.", "anchors": ["memory.c: fiftyoneDegreesMemoryStandardMallocAligned, fiftyoneDegreesMemoryTrackingMallocAligned"]}
{"id": "C48", "title": "YAML documents are delivered faithfully for every buffer size", "statement": "For a file of well-formed documents (--- separated key: value lines) whose keys and values fit the pair buffers, the callback receives exactly the documents in order with exactly their pairs, whatever the read buffer length; the document limit stops after that many documents.", "quantifier": "every list of documents, every buffer length at least one, every limit", "why_tests_cant": "Chunk boundaries can fall at every character.", "anchors": ["yamlfile.c: fiftyoneDegreesYamlFileIterateWithLimit, readNext, addCharacter, nextPair"]}
{"id": "C49", "title": "YAML parsing never writes outside the pair buffers", "statement": "For every file content, parsing writes only inside the key and value buffers of the given pairs.", "quantifier": "every file content", "why_tests_cant": "Malformed content is unbounded.", "anchors": ["yamlfile.c: fiftyoneDegreesYamlFileIterateWithLimit, nextPair, setCurrentKey, switchKeyValue"]}
{"id": "C50", "title": "Text file iteration delivers every line", "statement": "For every text file whose lines fit in the buffer, the callback receives every non-empty line in order exactly once, whatever the buffer length, up to the limit.", "quantifier": "every file content, every buffer length large enough, every limit", "why_tests_cant": "Depends on the alignment between file length, line lengths and buffer length.", "anchors": ["textfile.c: fiftyoneDegreesTextFileIterateWithLimit, returnNextLine"]}
{"id": "C51", "title": "Profile iteration yields exactly the profile's values for the property", "statement": "Iterating the values of a property in a profile calls back, in order, exactly the value indexes of the profile lying in the property's value range, and reads only inside the profile.", "quantifier": "every profile and property value range", "why_tests_cant": "All profiles and ranges; last element boundaries.", "anchors": ["profile.c: fiftyoneDegreesProfileIterateValuesForProperty, getFirstValueForProfileAndProperty, iterateValues"]}
{"id": "C52", "title": "Profiles with a given value are all found", "statement": "Iterating the profiles for a property and value calls back exactly the profiles of the component that contain that value, each once.", "quantifier": "every set of profiles and every value", "why_tests_cant": "All data sets.", "anchors": ["profile.c: fiftyoneDegreesProfileIterateProfilesForPropertyAndValue"]}
{"id": "C53", "title": "Item lists release everything exactly once", "statement": "After any sequence of additions to a list, releasing or freeing it releases each contained item exactly once and leaves the list empty; getting index i returns the i-th added item.", "quantifier": "every sequence of list operations", "why_tests_cant": "Histories.", "anchors": ["list.c: fiftyoneDegreesListAdd, fiftyoneDegreesListGet, fiftyoneDegreesListRelease, fiftyoneDegreesListFree, fiftyoneDegreesListReset"]}
{"id": "C54", "title": "Required properties configuration answers consistently", "statement": "A configuration built from a list or a separated string gives the same answer for count, list and containment queries however often and in whatever order they are asked.", "quantifier": "every property string/list and every sequence of queries", "why_tests_cant": "Sequences of queries; queries that modify the stored text.", "anchors": ["RequiredPropertiesConfig.cpp: getProperties, containsProperty, getCount"]}
{"id": "C55", "title": "A failed reload leaves the active data set in place", "statement": "If initialising the replacement data set fails, users continue to get the previous data set and nothing they hold is freed; if it succeeds, later users get the new one.", "quantifier": "every history of gets, releases and reloads, every failure point", "why_tests_cant": "Histories with failures.", "anchors": ["dataset.c: fiftyoneDegreesDataSetReloadManagerFromFile, fiftyoneDegreesDataSetReloadManagerFromMemory, replace"]}
{"id": "C56", "title": "Signals are not lost", "statement": "If a signal is set before or while a thread waits, the wait returns; each set releases at most one waiter and leaves the signal reset once consumed.", "quantifier": "every interleaving of setters and waiters", "why_tests_cant": "Lost wake-ups are schedule dependent.", "anchors": ["threading.c: fiftyoneDegreesSignalWait, fiftyoneDegreesSignalSet, fiftyoneDegreesSignalCreate"]}
{"id": "C57", "title": "File paths are split correctly", "statement": "The file name of a path is the part after its last separator, or the whole path if there is none.", "quantifier": "every path string", "why_tests_cant": "All strings.", "anchors": ["file.c: fiftyoneDegreesFileGetFileName, getNameFromPath, fiftyoneDegreesFileGetBaseName, getBasenameWithoutExtension"]}
{"id": "C58", "title": "Temp file matching compares content within its buffers", "statement": "Two files are reported equal exactly when their sizes agree and their first bytesToCompare bytes (or all bytes) agree, and no comparison reads beyond the comparison buffers.", "quantifier": "every pair of file contents and every bytesToCompare", "why_tests_cant": "All contents; bytesToCompare larger than the internal buffer.", "anchors": ["file.c: compareFiles"]}
{"id": "C59", "title": "Freeing a pool frees each created resource exactly once", "statement": "Whatever the creation function does (returning NULL, setting an exception at any item), creation stops at the first exception and PoolFree frees exactly the resources that were created, each once.", "quantifier": "every concurrency below 65535 and every behaviour of the creation function", "why_tests_cant": "Failing creations at every position are not exercised by tests.", "anchors": ["pool.c: fiftyoneDegreesPoolInit, fiftyoneDegreesPoolFree"]}
{"id": "C60", "title": "Pool operations are lock free and stay inside the stack", "statement": "In every interleaving a thread inside get or release can always take its next step with all indexes inside the stack, and its exchange fails only if another thread's exchange succeeded since it read the head.", "quantifier": "every number of threads, every interleaving within the C17 window", "why_tests_cant": "Starvation and stray indexes depend on the schedule.", "anchors": ["pool.c: fiftyoneDegreesPoolItemGet, fiftyoneDegreesPoolItemRelease"]}
{"id": "C61", "title": "Resource operations only access handles that are not freed", "statement": "No step of use, release, replace or manager free reads or writes a handle whose memory was already freed.", "quantifier": "every number of threads and every interleaving", "why_tests_cant": "The window between reading manager->active and using it is a few instructions wide.", "anchors": ["resource.c: fiftyoneDegreesResourceHandleIncUse, fiftyoneDegreesResourceHandleDecUse, fiftyoneDegreesResourceReplace"]}
{"id": "C62", "title": "A use request returns a handle that was active during the request", "statement": "Under every interleaving the handle returned by IncUse was the manager's active handle at some moment between call and return, and IncUse never returns NULL.", "quantifier": "every number of threads and every interleaving", "why_tests_cant": "Linearizability needs all schedules.", "anchors": ["resource.c: fiftyoneDegreesResourceHandleIncUse"]}
{"id": "C63", "title": "Gets and releases with a reused item neither leak nor touch freed memory", "statement": "For any sequence of gets, successful or failed, and releases with one item of a file backed collection, no freed memory is written or freed again, and a released item leaves no memory allocated.", "quantifier": "every sequence of gets with any item sizes and any failing step, and releases", "why_tests_cant": "Needs a read failure after a successful allocation, followed by a reuse of the same item.", "anchors": ["data.c: fiftyoneDegreesDataMalloc, fiftyoneDegreesDataReset", "collection.c: getFile, releaseFile, fiftyoneDegreesCollectionReadFileFixed, readFileVariable"]}
{"id": "C64", "title": "A list of IP addresses parses to exactly those addresses in order", "statement": "A text of IPv4 and IPv6 addresses with a single space or comma between neighbours parses to the list of the addresses, in order, with their types and bytes.", "quantifier": "every number, mix and content of addresses", "why_tests_cant": "Unbounded lists and 2^128 addresses.", "anchors": ["ip.c: fiftyoneDegreesIpParseAddresses"]}
{"id": "C65", "title": "Freeing a list of IP addresses frees each allocation once", "statement": "Freeing a parsed list passes to free exactly the pointers malloc returned, each once.", "quantifier": "every parsed list", "why_tests_cant": "An invalid pointer passed to free may go unnoticed by an allocator.", "anchors": ["ip.c: fiftyoneDegreesIpFreeAddresses, mallocIpAddress, fiftyoneDegreesIpParseAddress"]}
{"id": "C66", "title": "Comparison by length reads only the texts", "statement": "StringCompareLength reads no memory behind the terminators of its two texts and returns zero exactly if the texts agree, ignoring case, in their first length characters.", "quantifier": "all pairs of NUL-terminated strings and all lengths", "why_tests_cant": "Over-reads are invisible to tests unless the memory behind the text is inaccessible.", "anchors": ["string.c: fiftyoneDegreesStringCompareLength"]}
{"id": "C67", "title": "Portable float patterns decode to their value", "statement": "Every portable bit pattern with sign s, exponent e (1..254) and mantissa m decodes to (-1)^s 2^(e-127) (1 + m/2^23) without rounding error, with e = 0 to (-1)^s 2^-126 m/2^23, and the all ones pattern to infinity; FloatIsEqual returns zero exactly for equal bytes.", "quantifier": "all 2^32 bit patterns", "why_tests_cant": "Rounding of intermediate floating point results for every pattern.", "anchors": ["float.c: fiftyoneDegreesFloatToNative, fiftyoneDegreesFloatIsEqual"]}
{"id": "C68", "title": "Headers are found by their data set id", "statement": "With distinct ids in the data set each created data-set header is found by its own id, and an id other than 0 that no data-set header has finds nothing.", "quantifier": "every data set with distinct ids", "why_tests_cant": "All header sets and ids.", "anchors": ["headers.c: fiftyoneDegreesHeadersGetHeaderFromUniqueId, fiftyoneDegreesHeadersCreate"]}
{"id": "C69", "title": "Overrides are extracted from all query and cookie evidence", "statement": "The overridable properties are the available ones the filter takes. Extracting from evidence into an empty array with more room than overridable properties visits all query and cookie evidence in order; then the value of each property is that of the last such evidence whose field, less the 51D_ prefix, is its name ignoring case, and other properties have no value.", "quantifier": "every evidence array, property list, filter and capacity above the number of overridable properties", "why_tests_cant": "All evidence lists and property lists.", "anchors": ["overrides.c: fiftyoneDegreesOverridePropertiesCreate, fiftyoneDegreesOverridesExtractFromEvidence, addOverrideToResults, getRequiredPropertyIndexFromName, skipPrefix"]}
{"id": "C70", "title": "The overriding property is the first proper extension of the name", "statement": "OverridesGetOverridingRequiredPropertyIndex returns the lowest index of another available property whose name starts with the property's name (same case) and is longer, and -1 if there is none.", "quantifier": "every list of available properties and every index in it", "why_tests_cant": "All property lists.", "anchors": ["overrides.c: fiftyoneDegreesOverridesGetOverridingRequiredPropertyIndex"]}
{"id": "C71", "title": "Set header properties are recognised by their prefix", "statement": "PropertiesIsSetHeaderAvailable is true exactly when an available property's name starts with SetHeader, ignoring case.", "quantifier": "every list of available properties", "why_tests_cant": "All names, including those shorter than the prefix.", "anchors": ["properties.c: fiftyoneDegreesPropertiesIsSetHeaderAvailable", "string.c: fiftyoneDegreesStringSubString"]}
{"id": "C72", "title": "References to property names are balanced", "statement": "While properties are created and freed no reference to a name is released that is not held; after creation exactly one reference per available property is held, after a NULL result or after PropertiesFree none.", "quantifier": "every data set, request and sort result", "why_tests_cant": "All requests and data sets; leaks only show in later reloads.", "anchors": ["properties.c: fiftyoneDegreesPropertiesCreate, getPropertyIndex, setPropertyNames, fiftyoneDegreesPropertiesFree"]}
{"id": "C73", "title": "A profile is found by its id", "statement": "Looking up a profile id gives the profile offset, and the profile, whose id it is, and NULL when no profile has the id.", "quantifier": "every data set with profile offsets sorted by id, and every id", "why_tests_cant": "All sorted lists, including the empty one, and items that cannot be read.", "anchors": ["profile.c: fiftyoneDegreesProfileGetOffsetForProfileId, fiftyoneDegreesProfileGetByProfileId, fiftyoneDegreesProfileGetByIndex", "collection.c: fiftyoneDegreesCollectionBinarySearch"]}
{"id": "C74", "title": "Items are released to the collection they came from", "statement": "When profiles are iterated every item taken from a collection is released exactly once, and with the release method of the collection it was taken from.", "quantifier": "every data set, property and value", "why_tests_cant": "Depends on the kinds of all the collections; memory data sets hide it.", "anchors": ["profile.c: fiftyoneDegreesProfileIterateProfilesForPropertyAndValue", "property.c: fiftyoneDegreesPropertyGetByName"]}
{"id": "C75", "title": "Reusable memory is large enough and not leaked", "statement": "DataMalloc returns NULL or memory of at least the size asked for; the memory it replaces is freed exactly once, and after any sequence of calls at most one block is held.", "quantifier": "every sequence of sizes and of allocation failures", "why_tests_cant": "Histories with failures; sizes at the 32 bit limit.", "anchors": ["data.c: fiftyoneDegreesDataMalloc, fiftyoneDegreesDataReset"]}
{"id": "C76", "title": "Configuration and engine agree on the names in a string", "statement": "The names that RequiredPropertiesConfig lists for a string are those that properties.c looks for when it is given the same string.", "quantifier": "every string", "why_tests_cant": "All strings, all separators.", "anchors": ["RequiredPropertiesConfig.cpp: getProperties, containsProperty", "properties.c: iteratePropertiesFromString"]}
{"id": "C77", "title": "The temp file of a data set in use is kept", "statement": "The temp file of a data set is deleted when the data set is freed, and not while it or any other data set that uses the file is in use.", "quantifier": "every history of gets, releases and reloads", "why_tests_cant": "Histories; depends on which data sets share files.", "anchors": ["dataset.c: fiftyoneDegreesDataSetFree, initWithTempFile, fiftyoneDegreesDataSetReloadManagerFromFile"]}
{"id": "C78", "title": "An existing copy of a data file is found", "statement": "If one of the temp file paths holds a copy of the master file, whose name begins with the master's name without extension and whose content agrees, FileGetExistingTempFile finds such a copy, and what it finds is such a copy.", "quantifier": "every disk content, master path, list of paths and bytesToCompare", "why_tests_cant": "All directory contents and paths.", "anchors": ["file.c: fiftyoneDegreesFileGetExistingTempFile, getExistingTempFile (iterateTempFiles), compareFiles"]}
{"id": "C79", "title": "Only unused copies of the data file are deleted", "statement": "FileDeleteUnusedTempFiles deletes exactly the copies of the master file in the temp paths that are not in use, and returns how many.", "quantifier": "every disk content, master path, list of paths, use of files", "why_tests_cant": "All directory contents, any number of copies.", "anchors": ["file.c: fiftyoneDegreesFileDeleteUnusedTempFiles, deleteTempFile"]}
{"id": "C80", "title": "A file copy that succeeds is exact", "statement": "When FileCopy returns success the destination has exactly the bytes of the source and no other file changed.", "quantifier": "every disk, pair of paths and point of failure of the io", "why_tests_cant": "All failures of every io call.", "anchors": ["file.c: fiftyoneDegreesFileCopy"]}
{"id": "C81", "title": "A new temp file is one fresh copy of the master", "statement": "When FileNewTempFile or FileCreateTempFile succeeds exactly one new file was made, with the content of the master, under the returned name, in a temp path, and no other file changed; otherwise the disk is as before; the name buffer is not exceeded.", "quantifier": "every disk, master, pid, random strings, paths, buffer length and io failure", "why_tests_cant": "All lengths, all failures.", "anchors": ["file.c: fiftyoneDegreesFileNewTempFile, createTempFileWithPaths, createTempFileWithoutPaths, fiftyoneDegreesFileAddTempFileName, fiftyoneDegreesFileCreateTempFile"]}
{"id": "C82", "title": "Files are read and written whole", "statement": "FileReadToByteArray returns the content of the file or an error, FileWrite leaves a file with the content given or returns an error.", "quantifier": "every disk, content and io failure", "why_tests_cant": "All contents and failures.", "anchors": ["file.c: fiftyoneDegreesFileReadToByteArray, fiftyoneDegreesFileWrite"]}
{"id": "C83", "title": "The data file is found in the nearest ancestor", "statement": "FileGetPath returns the path of the file in the data folder of the nearest ancestor of the working directory that has it.", "quantifier": "every disk, working directory, folder, file and buffer size", "why_tests_cant": "All directory depths.", "anchors": ["file.c: fiftyoneDegreesFileGetPath"]}
{"id": "C84", "title": "Messages of statuses and exceptions are complete", "statement": "StatusGetMessage returns the text of the status with the file name put in it, or, for a status without text, one with its number; ExceptionGetMessage returns the status message, file, function and line, none cut.", "quantifier": "every status, file name, exception and failure of memory", "why_tests_cant": "All lengths of names and all numbers.", "anchors": ["status.c: fiftyoneDegreesStatusGetMessage", "exceptionsc.c: fiftyoneDegreesExceptionGetMessage"]}
{"id": "C85", "title": "Components are read where they are", "statement": "getFinalComponentSize is the length of the component in the file; ComponentInitList makes a list of the components in order at their offsets, or ends with an exception; name, default profile and key value pairs are those written, and indexes that are out of range are refused.", "quantifier": "every sequence of components, count and index", "why_tests_cant": "All counts of components and pairs; 32 bit offsets.", "anchors": ["component.c: getFinalComponentSize, fiftyoneDegreesComponentInitList, fiftyoneDegreesComponentGetKeyValuePair, fiftyoneDegreesComponentGetDefaultProfileId, fiftyoneDegreesComponentGetName"]}
{"id": "C86", "title": "The C++ evidence map gives the evidence of its entries", "statement": "EvidenceBase::get returns an array that holds, in the order of the keys, exactly the entries whose key has a relevant prefix, with the field after the prefix and the value; earlier arrays are freed once, and no freed array is used.", "quantifier": "every sequence of inserts, erases, clears and gets, every map content", "why_tests_cant": "All sequences of operations and all map contents.", "anchors": ["EvidenceBase.cpp: EvidenceBase::get, clear, erase, ~EvidenceBase"]}
{"id": "C87", "title": "An engine's keys are those its evidence is taken from", "statement": "The keys of an engine are the override properties under cookie. and query. and the unique headers under header. and query., each once, without pseudo headers, and each is a key that evidence accepts; the update URL is the one set, or that of the licence key.", "quantifier": "every list of names and headers, configuration, URL and key", "why_tests_cant": "All names and lists of headers.", "anchors": ["EngineBase.cpp: addKey, initOverrideKeys, initHttpHeaderKeys, getDataUpdateUrl, getAutomaticUpdatesEnabled"]}
{"id": "C88", "title": "Results return the engine's values or its reason", "statement": "For a property with values the string is the values separated by bars, bool, int and double are the single value converted or a too many values error, and the vector is the values; without values getValue throws the engine's reason and message; names select the same values as indexes.", "quantifier": "every engine, property, value text and name in any case", "why_tests_cant": "All values and reasons and all name tables.", "anchors": ["ResultsBase.cpp: getValueAsString, getValueAsBool, getValueAsInteger, getValueAsDouble, getValues, containsProperty, getProperties, getPropertyName", "Value.hpp: getValue, setValue, setNoValueReason"]}
{"id": "C89", "title": "The configuration object holds the settings of the last calls", "statement": "After any calls of the setters the C configuration has the last value of each setting and its temp directories are the strings set last; the destructor frees every array once.", "quantifier": "every sequence of setter calls and list of directories", "why_tests_cant": "All sequences of calls and all texts.", "anchors": ["ConfigBase.cpp: setTempDirectories, setUseTempFile, setReuseTempFile, setUseUpperPrefixHeaders, ~ConfigBase"]}
{"id": "C90", "title": "A file pool has the configured handles and closes each once", "statement": "FilePoolInit opens exactly the configured number of handles, each of which can be had once; a failure is reported with its status; FilePoolRelease closes every handle that was opened exactly once; the length is that of the file.", "quantifier": "every concurrency, pattern of failing openings, exception and number of threads", "why_tests_cant": "All concurrencies to 65534 and all failure patterns.", "anchors": ["file.c: createFileHandle, freeFileHandle, setLength, fiftyoneDegreesFilePoolInit, fiftyoneDegreesFilePoolRelease"]}
{"id": "C91", "title": "A data set works on its file or on a copy of it, and leaves the disk as it was", "statement": "Initialising a data set from a file gives a working file that is the master, a new copy or an existing copy; freeing it deletes the copy that was made; the master is never changed; names that do not fit are refused.", "quantifier": "every disk, configuration, name, failing call", "why_tests_cant": "All disks, names and failure patterns.", "anchors": ["dataset.c: fiftyoneDegreesDataSetInitFromFile, initWithTempFile, fiftyoneDegreesDataSetInitInMemory, freeDataSet's temp file"]}
{"id": "C92", "title": "Texts that are no addresses are refused", "statement": "A text that is neither an IPv4 nor an IPv6 address gives the type INVALID.", "quantifier": "every byte string", "why_tests_cant": "Malformed inputs are unbounded.", "anchors": ["ip.c: fiftyoneDegreesIpParseAddress, getIpByte, parseIpV6Segment"]}
{"id": "C93", "title": "A value is found by its name", "statement": "For values of a property in increasing order the value whose text, address or coordinate a name stands for is found, and none if there is none; every item got is released but the one returned.", "quantifier": "every range of values, text, form of value, failing read", "why_tests_cant": "All orders of values and all texts.", "anchors": ["value.c: compareCoordinate, compareIpAddress, compareValueByName, fiftyoneDegreesValueGetIndexByName, fiftyoneDegreesValueGetByName"]}
{"id": "C94", "title": "Strings are read whole from files", "statement": "A string read from a file is its two size bytes and as many bytes as they say, and the memory for it is large enough.", "quantifier": "every file, offset, size", "why_tests_cant": "All sizes, negative ones included.", "anchors": ["string.c: getFinalStringSize, fiftyoneDegreesStringRead", "collection.c: readFileVariable"]}
{"id": "C95", "title": "Coordinates are read as stored", "statement": "The numbers stored in a string of the coordinate format are given back and any other string is reported as corrupt.", "quantifier": "every pair of floats, every string", "why_tests_cant": "All floats.", "anchors": ["coordinate.c: fiftyoneDegreesIpiGetCoordinate"]}
{"id": "C96", "title": "Collections of files neither leak nor free twice", "statement": "Creating a collection from a file with any settings, loading any items through its cache and freeing it frees every block exactly once and leaves the memory as it was; a creation that fails leaves it as it was; no pointer that is NULL is used.", "quantifier": "every settings, header, item sizes, failing allocation, seek or read, every sequence of loads", "why_tests_cant": "Every call of the creation would have to fail in turn, in every configuration.", "anchors": ["collection.c: createCollection, createFromFile, createFromFilePartial, createFromFileCached, createFromFileSecond, fiftyoneDegreesCollectionCreateFromFile, calculateLoadedSize, iterateCollection, loaderCache, freeMemoryCollection, freeFileCollection, freeCacheCollection", "cache.c: fiftyoneDegreesCacheCreate, fiftyoneDegreesCacheFree, cacheShardFree"]}
{"id": "C97", "title": "Collections in memory neither leak nor free twice", "statement": "A collection created from memory, or from a file in the build that keeps all in memory, frees its blocks and the bytes that are its own exactly once; a creation that fails leaves the memory as it was.", "quantifier": "every header, every failing allocation, seek, read or advance", "why_tests_cant": "Each call of the creation has to fail in turn.", "anchors": ["collection.c: fiftyoneDegreesCollectionCreateFromMemory, fiftyoneDegreesCollectionCreateFromFile, freeMemoryCollection"]}
{"id": "C98", "title": "Headers neither leak nor free twice", "statement": "Creating the headers of a data set never does anything undefined whichever allocation fails; the headers created are those of the names, each with memory of its own; freeing them restores the memory; a creation that fails leaves the memory as it was.", "quantifier": "every list of names, every failing allocation", "why_tests_cant": "Each allocation has to fail in turn for every list of names.", "anchors": ["headers.c: fiftyoneDegreesHeadersCreate, fiftyoneDegreesHeadersFree, createSegmentArray, copyHeaderName, setHeaderFromDataSet, setHeaderFromSegment, addHeadersFromDataSet, addHeadersFromSegments, countAllSegments"]}
{"id": "C99", "title": "Available properties neither leak nor free twice and their status is right", "statement": "Available properties that were created can be freed, which restores the memory; the status of the initialisation is success exactly when there are properties, all names were read and all evidence properties are there, and otherwise names the reason; a name that cannot be read is reported.", "quantifier": "every choice of properties, every failing allocation or read of a name, every answer of the evidence method, every order of sorting", "why_tests_cant": "Reads of names and allocations have to fail in turn for every choice of properties.", "anchors": ["properties.c: fiftyoneDegreesPropertiesCreate, initRequiredPropertiesMemory, setPropertyNames, setEvidenceProperties, sortRequiredProperties, initRequiredProperties, fiftyoneDegreesPropertiesFree", "dataset.c: fiftyoneDegreesDataSetInitProperties"]}
{"id": "C100", "title": "A data set frees its members once", "statement": "A data set that went through any sequence of initialisations and frees can be freed: every member is freed exactly once, the memory is as it was before, the temporary file is deleted exactly if one is used, and freeing again is harmless.", "quantifier": "every sequence of initialisations of headers, properties, overrides and memory and of frees; every failing allocation", "why_tests_cant": "The number of sequences and failing allocations is unbounded.", "anchors": ["dataset.c: fiftyoneDegreesDataSetFree, fiftyoneDegreesDataSetReset, fiftyoneDegreesDataSetInitHeaders, fiftyoneDegreesDataSetInitProperties", "overrides.c: fiftyoneDegreesOverridePropertiesCreate, fiftyoneDegreesOverridePropertiesFree"]}
{"id": "C101", "title": "Keys of meta data are ordered and compared by what they name", "statement": "The order of value keys is strict and total, by property and then by value from the last to the first, and two keys are equal exactly if neither is less; entities are equal exactly if their keys are, and not equal otherwise.", "quantifier": "all property and value names of any length", "why_tests_cant": "A strict total order is a statement about all triples of names.", "anchors": ["ValueMetaData.cpp: ValueMetaDataKey::operator<, ValueMetaDataKey::operator==", "EntityMetaData.hpp: operator==, operator!="]}
{"id": "C102", "title": "Copies of meta data keep everything", "statement": "A meta data object of a value, profile, component or property has what it was constructed with, and a copy is the same in all members.", "quantifier": "all members", "why_tests_cant": "There are too many combinations of members; an exchange of two members only shows if they differ.", "anchors": ["ValueMetaData.cpp", "ProfileMetaData.cpp", "ComponentMetaData.cpp", "PropertyMetaData.cpp"]}
{"id": "C103", "title": "Strings of meta data are the texts stored and leave no memory", "statement": "Getting a string gives the text stored up to its zero and frees the memory of the item; if it cannot be read an exception is thrown and no memory is left.", "quantifier": "every stored text, every failing read or allocation, every heap", "why_tests_cant": "Failing reads and allocations are not tested and texts are unbounded.", "anchors": ["MetaData.cpp: MetaData::getString", "EntityMetaDataBuilder.hpp: getString"]}
{"id": "C104", "title": "Exceptions say what happened", "statement": "An exception for a status has that code and its message; a fatal exception has the message, file, function and line of the C exception and its code.", "quantifier": "every status, file name, function, line and failing allocation", "why_tests_cant": "Names are unbounded, and a member that is not set often has the right value by chance.", "anchors": ["Exceptions.cpp: StatusCodeException, FatalException, InvalidPropertyException, NoValuesAvailableException"]}
{"id": "C105", "title": "Settings, dates and truth values are what was given", "statement": "A collection setting is the last one given through any object for the structure, others stay; a date has the year, month and day of its bytes; numbers are true unless zero.", "quantifier": "every sequence of calls on any number of structures, every date, every number", "why_tests_cant": "Sequences of calls are unbounded.", "anchors": ["CollectionConfig.cpp", "Date.cpp", "date.h", "bool.c"]}
{"id": "C106", "title": "Override values and lists of results neither leak nor free twice", "statement": "After any sequence of adding and resetting overrides, listing them, reading and listing values and releasing the list, nothing undefined has happened, the values and the list can be freed in either order, each block is freed once and the memory is as it was before.", "quantifier": "every sequence of operations, all lengths, capacities and heaps, every failing read", "why_tests_cant": "The sequences are unbounded and leaks or double frees depend on the order and on the sizes of earlier texts.", "anchors": ["overrides.c: fiftyoneDegreesOverrideValuesCreate, fiftyoneDegreesOverridesAdd, fiftyoneDegreesOverrideValuesReset, fiftyoneDegreesOverrideValuesFree, fiftyoneDegreesOverrideValuesAdd", "list.c", "data.c: fiftyoneDegreesDataMalloc"]}
{"id": "C107", "title": "An override that is held stays", "statement": "The string of an override that was got, or that is in a list, stays live and where it is while the results are used.", "quantifier": "every history of the results before and after the get", "why_tests_cant": "Use after free shows only for certain lengths and orders of calls.", "anchors": ["overrides.c: fiftyoneDegreesOverrideValuesGetFirst, fiftyoneDegreesOverrideValuesAdd, fiftyoneDegreesOverridesAdd"]}
{"id": "C108", "title": "The list of components has those that can be read and leaves no memory", "statement": "Initialising the list of components reads them in order up to the first that cannot be read, says so, and freeing the list restores the memory whichever read or allocation failed.", "quantifier": "every number of components, every failing read or allocation, every heap", "why_tests_cant": "Each read and allocation has to fail in turn for every number of components.", "anchors": ["component.c: fiftyoneDegreesComponentInitList", "list.c"]}
{"id": "C109", "title": "The header of a collection describes what is stored", "statement": "The header read from a file or memory gives the start, length and count of the items stored after it, whether it stores a count or a size, and the collection made from it reports that count.", "quantifier": "every file, position, element size and list of items; every configuration and history of the collection", "why_tests_cant": "The header's arithmetic depends on 32 bit values and positions that test files never reach.", "anchors": ["collection.c: fiftyoneDegreesCollectionHeaderFromMemory, fiftyoneDegreesCollectionHeaderFromFile, fiftyoneDegreesCollectionGetCount"]}
{"id": "C110", "title": "Strings, properties, values and profiles are read as they were stored", "statement": "For a data set stored in a file, every string, property (name, description, category, URL, type, range of values), value (name, description, URL), profile offset and profile is read back exactly as it was stored.", "quantifier": "every data set and layout of the file, every configuration of each collection, after any gets and releases", "why_tests_cant": "Data sets, layouts, configurations and histories are unbounded; a wrong offset shows only for some.", "anchors": ["property.h: fiftyoneDegreesProperty", "value.h: fiftyoneDegreesValue", "profile.h: fiftyoneDegreesProfile, fiftyoneDegreesProfileOffset", "string.c: fiftyoneDegreesStringRead", "profile.c: fiftyoneDegreesProfileReadFromFile", "property.c: fiftyoneDegreesPropertyGetName, fiftyoneDegreesPropertyGetDescription, fiftyoneDegreesPropertyGetCategory, fiftyoneDegreesPropertyGetUrl, fiftyoneDegreesPropertyGetValueType", "value.c: fiftyoneDegreesValueGetName, fiftyoneDegreesValueGetDescription, fiftyoneDegreesValueGetUrl"]}
{"id": "C111", "title": "Properties and profiles of a file are found", "statement": "In a data set stored in a file a property is found by name, a profile by id, the profiles with a value by the names of the property and the value, and the values of a profile for a property with their names; nothing else is found and what is got is released.", "quantifier": "every well formed data set and layout of the file, every configuration of each collection, after any gets and releases", "why_tests_cant": "It needs the whole chain from bytes to results for all data sets and configurations.", "anchors": ["profile.c: fiftyoneDegreesProfileIterateProfilesForPropertyAndValue, fiftyoneDegreesProfileGetByProfileId, fiftyoneDegreesProfileIterateValuesForProperty", "property.c: fiftyoneDegreesPropertyGetByName", "value.c: fiftyoneDegreesValueGetIndexByName", "collection.c"]}
{"id": "C112", "title": "The values of a profile do not depend on the configuration", "statement": "Reading the values of a stored profile gives the same in all configurations of the collections.", "quantifier": "every data set and layout of the file, every configuration", "why_tests_cant": "Bytes after a profile that are there in memory are not there when it is read from the file, and only for some profiles and properties.", "anchors": ["profile.c: fiftyoneDegreesProfileIterateValuesForProperty", "collection.c"]}
{"id": "C113", "title": "An item is given back by the release method it is released with", "statement": "An item of a collection released with a method, whichever collection that method is of, gives back the memory, file handle or cache node it holds, and nothing else changes.", "quantifier": "every stored data set, configuration and history of the collections, every item and release method", "why_tests_cant": "Tests release items with the method of their own collection and mostly in one configuration.", "anchors": ["collection.c: releaseCacheItem, the release methods set by fiftyoneDegreesCollectionCreateFromFile and CreateFromMemory", "collection.h: FIFTYONE_DEGREES_COLLECTION_RELEASE"]}
{"id": "C114", "title": "Searches of a data set give back all they take", "statement": "Finding a property by name, its type, the index or item of a value by name, the profiles with a value, and a profile by index or id return what is stored and afterwards hold nothing but the item returned, which can be released.", "quantifier": "every stored data set, every configuration where the release methods fit, after any use of the collections, with any items", "why_tests_cant": "Data sets, configurations and the state of caches and files at the time of the call are unbounded, and a leak shows only later.", "anchors": ["property.c: fiftyoneDegreesPropertyGetByName, fiftyoneDegreesPropertyGetValueType", "value.c: fiftyoneDegreesValueGetByName, fiftyoneDegreesValueGetIndexByName", "profile.c: fiftyoneDegreesProfileIterateProfilesForPropertyAndValue, fiftyoneDegreesProfileGetByIndex, fiftyoneDegreesProfileGetByProfileId"]}
{"id": "C115", "title": "Searches of a data set do not depend on the configuration or on failures", "statement": "The searches return what is stored for all combinations of configurations of the collections, and give back what they took also when a read fails.", "quantifier": "every combination of configurations, every sequence of failures", "why_tests_cant": "The combinations of configurations and failing reads are not tested.", "anchors": ["property.c: fiftyoneDegreesPropertyGetByName", "profile.c: fiftyoneDegreesProfileIterateProfilesForPropertyAndValue"]}
{"id": "C116", "title": "Searches of a data set are defined when reads fail", "statement": "Whatever fails while the collections are read, finding a property by name, its type, the index or item of a value, the profiles with a value and a profile by index or id ends, and either returns what is stored and gives all back or sets the exception; then the profiles reported are the first of the right ones, at most one block of memory is kept, and the collections can still be used.", "quantifier": "every stored data set, every configuration where the release methods fit, after any use of the collections, every sequence of failures of handles, memory, seeks and reads", "why_tests_cant": "Tests do not make reads fail in the middle of a search, and the points where one can fail grow with the data set.", "anchors": ["property.c: fiftyoneDegreesPropertyGetByName, fiftyoneDegreesPropertyGetValueType", "value.c: fiftyoneDegreesValueGetByName, fiftyoneDegreesValueGetIndexByName", "profile.c: fiftyoneDegreesProfileIterateProfilesForPropertyAndValue, fiftyoneDegreesProfileGetByIndex, fiftyoneDegreesProfileGetOffsetForProfileId, fiftyoneDegreesProfileGetByProfileId", "collection.c: fiftyoneDegreesCollectionBinarySearch"]}
{"id": "C117", "title": "A signal that is closed gives back what its creation took", "statement": "Signals can be created, used and closed in any order, whichever calls fail; a creation that fails and a signal that is closed leave the heap, the condition variables and the mutexes as they were before.", "quantifier": "every history of creations, uses and closes of signals, every failure of the calls in a creation", "why_tests_cant": "Failing pthread calls and leaks are not visible to tests, and histories are unbounded.", "anchors": ["threading.c: fiftyoneDegreesSignalCreate, fiftyoneDegreesSignalClose"]}
{"id": "C118", "title": "Concurrent searches of a data set all return what is stored", "statement": "Any number of threads can search the same data set, keep the items they found and release them; every call ends and returns what is stored, whatever the other threads do between its gets and releases, and when all is released no memory, file handle or cache node is kept.", "quantifier": "every data set, every configuration of the collections, any number of threads, every interleaving of their gets and releases, every sequence of calls", "why_tests_cant": "The interleavings of the gets and releases of several threads cannot be enumerated, and the small caches that go wrong are not the configured ones.", "anchors": ["property.c: fiftyoneDegreesPropertyGetByName, fiftyoneDegreesPropertyGetValueType", "value.c: fiftyoneDegreesValueGetIndexByName, fiftyoneDegreesValueGetByName", "profile.c: fiftyoneDegreesProfileIterateProfilesForPropertyAndValue, fiftyoneDegreesProfileGetByProfileId, fiftyoneDegreesProfileGetByIndex", "collection.c: fiftyoneDegreesCollectionCreateFromFile", "cache.c: fiftyoneDegreesCacheGet"]}
{"id": "C119", "title": "Resources are safe when the memory of a freed handle is used again", "statement": "Where the heap hands out freed blocks again, under every interleaving of use, release and replace a resource is not freed while it is held or active nor twice, and a get returns a resource that was active during the call, with a handle that its user can release.", "quantifier": "every number of threads, every interleaving of the shared memory accesses, every choice of a free block for each new handle", "why_tests_cant": "It needs a new handle to get the address of a freed one while another thread is between two instructions of a release.", "anchors": ["resource.c: fiftyoneDegreesResourceHandleIncUse, fiftyoneDegreesResourceHandleDecUse, fiftyoneDegreesResourceReplace, setupResource"]}
{"id": "C120", "title": "The mutex of each shard makes the calls of the cache atomic", "statement": "Where gets and releases of any threads are steps between the lock and the unlock of a shard, the calls are as if each was done at its unlock, no step is undefined or fails an assert, no two threads are in the same shard, there is no deadlock, every call ends within a bounded number of steps, a held entry's data is unchanged at every step, every use of an entry is made with its lock, and when all calls returned the counters are those of the gets.", "quantifier": "every number of threads, every interleaving of the single uses of memory, every sequence of well used calls, every capacity and concurrency", "why_tests_cant": "The interleavings of the statements of overlapping calls cannot be enumerated by tests, and the lost increment of a counter and the read after the unlock need one of a few of them.", "anchors": ["cache.c: fiftyoneDegreesCacheGet, fiftyoneDegreesCacheRelease, cacheLoad, cacheGetNextFree, cacheIncremenetCheckAndRemove"]}
{"id": "C121", "title": "Searches whose file reads overlap are right with a file handle for each", "statement": "When any threads search a data set and a read from the file takes a file handle and the mutex of its cache shard for a time in which the other threads go on, then with a file handle for each call in progress every call returns what is stored, no get is without a handle, a shard has one reader and what it read is still missing, no thread waits for ever, the steps of a call are bounded, and when nothing is in use all handles, nodes and memory are back; the effects are those of reads that do not overlap.", "quantifier": "every data set and storage of its collections, every number of threads, calls and interleavings, every number of handles not less than the calls in progress", "why_tests_cant": "Whether two reads overlap depends on the scheduler, and a handle is only missing when more reads overlap than there are handles.", "anchors": ["collection.c: fiftyoneDegreesCollectionReadFilePosition, fiftyoneDegreesCollectionReadFileFixed, fiftyoneDegreesCollectionReadFileVariable, getFromCache", "cache.c: fiftyoneDegreesCacheGet, fiftyoneDegreesCacheRelease", "file.c: fiftyoneDegreesFileHandleGet, fiftyoneDegreesFileHandleRelease"]}
{"id": "C122", "title": "Tracking switched on and off reports the bytes of each session", "statement": "When memory is allocated and freed by any threads while fiftyoneDegreesSetUpMemoryTracking, fiftyoneDegreesUnsetMemoryTracking and fiftyoneDegreesMemoryTrackingReset switch the tracking when no tracked call is in progress, and every block is freed in the session it was allocated in, or with tracking off if it was allocated so, then no step is undefined, each Unset returns the bytes of its session that were not freed, whatever earlier sessions left, and the total and the maximum are those of the session.", "quantifier": "every history of calls of every number of sessions and threads", "why_tests_cant": "Whether a record of an earlier session is in the way depends on the addresses malloc returns and on the order of all sessions before.", "anchors": ["memory.c: fiftyoneDegreesSetUpMemoryTracking, fiftyoneDegreesUnsetMemoryTracking, fiftyoneDegreesMemoryTrackingReset, fiftyoneDegreesMalloc, fiftyoneDegreesMallocAligned, fiftyoneDegreesFree, fiftyoneDegreesFreeAligned"]}
{"id": "C123", "title": "The tracker is set up before anything is tracked", "statement": "When threads allocate tracked memory and the set-up of the tracker is done step by step by the first of them, and no other thread calls tryInit before it is done, then no step is undefined, nothing is tracked before the set-up ends, it ends after at most 25 steps, and the tracker is then what the tracked sections make in their order of a tracker that was set up at once.", "quantifier": "every number of threads and every interleaving of their steps", "why_tests_cant": "The set-up is done once in a process, in a few instructions another thread can come between.", "anchors": ["memory.c: tryInit, fiftyoneDegreesMemoryTrackingReset, fiftyoneDegreesMemoryTrackingMalloc"]}
{"id": "C124", "title": "The unassigned half of the exchanged word does not disturb the pool", "statement": "On LP64 the exchanged word of a pool has 64 bits of which only 32 are assigned by get and release. Whatever bits of the stack the rest holds at each exchange, as long as copying the head copies the whole word and within the exchange window of C17, every history of the pool is a history of the pool with a 32 bit word: no item has two users, a get is refused only when nothing was free, and an exchange by a thread that read the newest head succeeds. Nor do the extra bits lift the limit of 65536 exchanges.", "quantifier": "every number of threads, every pool size below 65535, every interleaving of the atomic steps, every value of the unassigned bits at every step", "why_tests_cant": "The unassigned bits depend on the compiler and on what was on the stack; tests see one value, most often 0.", "anchors": ["pool.h: fiftyoneDegreesPoolHead", "pool.c: fiftyoneDegreesPoolItemGet, fiftyoneDegreesPoolItemRelease"]}
{"id": "C125", "title": "Without threads the resource manager frees exactly what is unused", "statement": "In the build with FIFTYONE_DEGREES_NO_THREADING, for every sequence of gets, releases of held handles, replaces and at last one free of the manager, no call is undefined or uses freed memory, a get returns the active handle, each handle's count is its number of users, a resource is freed once and just when it is not active and has no users, and all is as when one thread runs the threaded build.", "quantifier": "every sequence of calls of any length", "why_tests_cant": "The repository's tests are built with threads; the other branches of the conditional compilation are not run, and sequences are unbounded.", "anchors": ["resource.c: fiftyoneDegreesResourceHandleIncUse, fiftyoneDegreesResourceHandleDecUse, fiftyoneDegreesResourceReplace, fiftyoneDegreesResourceManagerFree (#else branches)"]}
{"id": "C126", "title": "Without threads the pool hands out each free item, the last released first", "statement": "In the build with FIFTYONE_DEGREES_NO_THREADING, for every pool size below 65535 and every sequence of gets and releases of held items, no call is undefined, a get hands out a free item and is refused just when all items are held, an item just released is the next one handed out, and all is as when one thread runs the threaded build.", "quantifier": "every pool size below 65535, every sequence of calls of any length", "why_tests_cant": "The repository's tests are built with threads; the other branches of the conditional compilation are not run, and sequences are unbounded.", "anchors": ["pool.c: fiftyoneDegreesPoolItemGet, fiftyoneDegreesPoolItemRelease (#else branches)"]}
{"id": "C127", "title": "Gets and releases may overlap when a replace exchanges alone", "statement": "If a replace makes its exchange of the active handle only while no other call is in progress, and the manager is not freed, then however all other steps of gets, releases and replaces overlap: no freed handle is read or written, no get returns NULL, a get returns the handle active at its exchange, no resource is given up, and between calls a resource has been freed, once, just when it is not active and has no users. That replaces do not overlap each other is not enough for this.", "quantifier": "every number of threads and every such interleaving of any length", "why_tests_cant": "The windows are a few instructions wide and the interleavings unbounded.", "anchors": ["resource.c: fiftyoneDegreesResourceHandleIncUse, fiftyoneDegreesResourceHandleDecUse, fiftyoneDegreesResourceReplace"]}
