{"id": "C01", "title": "Byte-string key codec round trip", "statement": "Encoding any byte string with EncodeBytes (or EncodeBytesDesc), followed by any trailing bytes, decodes with DecodeBytes (DecodeBytesDesc) to exactly that byte string and leaves exactly the trailing bytes.", "quantifier": "all byte strings data, all existing buffer contents, all trailing bytes, both directions", "why_tests_cant": "infinite input space; a test samples finitely many inputs", "anchors": ["kv/memcomparable/bytes.go:EncodeBytes", "kv/memcomparable/bytes.go:DecodeBytes", "kv/memcomparable/bytes.go:EncodeBytesDesc", "kv/memcomparable/bytes.go:DecodeBytesDesc"]}
{"id": "C02", "title": "Byte-string key codec preserves order", "statement": "Comparing two EncodeBytes encodings bytewise gives the same answer as comparing the original byte strings; with EncodeBytesDesc it gives the opposite answer.", "quantifier": "all pairs of byte strings", "why_tests_cant": "infinite input space; a test samples finitely many inputs", "anchors": ["kv/memcomparable/bytes.go:EncodeBytes", "kv/memcomparable/bytes.go:EncodeBytesDesc"]}
{"id": "C03", "title": "Byte-string key codec is prefix free and composes", "statement": "No encoding is a proper prefix of another, so composite keys built by appending further material compare first by the encoded component and then by the rest, and two composite keys are equal only if component and rest are equal.", "quantifier": "all pairs of byte strings and all suffixes", "why_tests_cant": "infinite input space; a test samples finitely many inputs", "anchors": ["kv/memcomparable/bytes.go:EncodeBytes", "kv/memcomparable/bytes.go:EncodeBytesDesc"]}
{"id": "C04", "title": "Byte-string decoder is canonical and total", "statement": "DecodeBytes/DecodeBytesDesc either report an error or return data and leftover such that the input is exactly the encoding of data followed by leftover; they never panic; EncodedBytesLength gives the exact length.", "quantifier": "all input byte strings, valid or garbage", "why_tests_cant": "infinite input space; a test samples finitely many inputs", "anchors": ["kv/memcomparable/bytes.go:decodeBytes", "kv/memcomparable/bytes.go:EncodedBytesLength"]}
{"id": "C05", "title": "Integer key codecs: round trip, order, totality", "statement": "EncodeInt64/EncodeUint64/EncodeUint8 and their Desc variants round trip with any leftover, compare bytewise as the numbers do (reversed for Desc), take a fixed number of bytes, and their decoders fail exactly on too-short input.", "quantifier": "all int64/uint64/uint8 values, all leftovers, all inputs", "why_tests_cant": "infinite input space; a test samples finitely many inputs", "anchors": ["kv/memcomparable/number.go"]}
{"id": "C06", "title": "Float key codec: order and round trip on numbers", "statement": "For all non-NaN doubles EncodeFloat64 compares bytewise exactly as the real values (Desc reversed), and decoding gives back the same bits except that -0.0 comes back as +0.0.", "quantifier": "all pairs of non-NaN 64-bit patterns (subnormals and infinities included)", "why_tests_cant": "infinite input space; a test samples finitely many inputs", "anchors": ["kv/memcomparable/float.go"]}
{"id": "C07", "title": "Float key codec on NaN", "statement": "A NaN stored through the float key codec decodes to a NaN and does not collide with the encoding of an ordinary number.", "quantifier": "all 64-bit NaN patterns", "why_tests_cant": "needs all 2^53 NaN patterns against all numbers", "anchors": ["kv/memcomparable/float.go:encodeFloat64ToUint64", "kv/memcomparable/float.go:decodeUint64ToFloat64"]}
{"id": "C08", "title": "Varint codec round trip", "statement": "compact EncodeVarint/EncodeUvarint/EncodeBytes round trip with any leftover, use at most 10 bytes per integer, and decoding reports an error on every truncated encoding.", "quantifier": "all int64/uint64 values and byte strings, all leftovers, all truncation points", "why_tests_cant": "infinite input space; a test samples finitely many inputs", "anchors": ["kv/compact/number.go", "kv/compact/bytes.go"]}
{"id": "C09", "title": "Compact decoders never crash", "statement": "compact.DecodeBytes returns data or an error for every input; it never panics.", "quantifier": "all input byte strings", "why_tests_cant": "infinite input space; a test samples finitely many inputs", "anchors": ["kv/compact/bytes.go:DecodeBytes"]}
{"id": "C10", "title": "Decimal and binary integer values round trip", "statement": "Encode2Human/DecodeFromHuman and Encode2Binary/DecodeFromBinary round trip for every 64-bit value, and the decoders reject everything out of range, empty or of wrong shape.", "quantifier": "all int64/uint64 values, all input byte strings", "why_tests_cant": "infinite input space; a test samples finitely many inputs", "anchors": ["kv/numeric/human.go", "kv/numeric/binary.go"]}
{"id": "C11", "title": "PrefixNext bounds exactly the keys with a prefix", "statement": "For a prefix that is not all 0xFF, a key k has the prefix iff prefix <= k < PrefixNext(prefix), and no smaller bound works; for an all-0xFF prefix PrefixNext is not an upper bound.", "quantifier": "all prefixes and all keys", "why_tests_cant": "infinite input space; a test samples finitely many inputs", "anchors": ["kv/key.go:Key.PrefixNext", "kv/key.go:Key.HasPrefix", "kv/key.go:Key.Cmp"]}
{"id": "C12", "title": "Key.Next is the immediate successor and IsPoint is exact", "statement": "No key lies strictly between k and k.Next(); KeyRange.IsPoint holds exactly when EndKey is StartKey.Next() or (StartKey not all 0xFF) StartKey.PrefixNext(), never panics, and then the range contains exactly one key of StartKey's length.", "quantifier": "all pairs of keys", "why_tests_cant": "infinite input space; a test samples finitely many inputs", "anchors": ["kv/key.go:Key.Next", "kv/key.go:KeyRange.IsPoint"]}
{"id": "C13", "title": "Counters: IncInt64/GetInt64/SetInt64", "statement": "Any sequence of IncInt64 and SetInt64 on keys of one transaction makes GetInt64 return, per key, the last set value plus the later increments modulo 2^64 as a signed number; other keys keep their values; failing calls change nothing.", "quantifier": "all operation sequences, all keys and steps", "why_tests_cant": "must hold after every finite sequence of operations; tests try a few sequences", "anchors": ["kv/util.go"]}
{"id": "C14", "title": "Structure key spaces are disjoint", "statement": "String keys, hash meta, hash field, list meta and list element keys of any two (key, field, index) tuples under one prefix are equal only if kind and components are equal, and a hash's (list's) element prefix covers exactly that hash's (list's) elements.", "quantifier": "all keys, fields and indices", "why_tests_cant": "infinite input space; a test samples finitely many inputs", "anchors": ["structure/keys.go"]}
{"id": "C15", "title": "String structure refines a map", "statement": "Get/Set/Inc/GetInt64/SetInt64/Clear of the string structure behave as a map from key to value and never touch hashes or lists.", "quantifier": "all operation sequences on all keys", "why_tests_cant": "must hold after every finite sequence of operations; tests try a few sequences", "anchors": ["structure/string.go"]}
{"id": "C16", "title": "Hash structure refines a map of maps", "statement": "After any sequence of HSet (non-empty values), HDel and HClear, HGet, HGetAll, HKeys and HGetN return exactly the current fields with their values, ordered by field.", "quantifier": "all operation sequences over all keys/fields", "why_tests_cant": "must hold after every finite sequence of operations; tests try a few sequences", "anchors": ["structure/hash.go"]}
{"id": "C17", "title": "Setting a hash field stores it, whatever the value", "statement": "After HSet(key, field, value) succeeds the field exists with that value, also when the value is empty.", "quantifier": "all keys, fields and values including empty ones", "why_tests_cant": "needs the corner value class to be considered for every state", "anchors": ["structure/hash.go:TxStructure.HSet", "structure/hash.go:TxStructure.updateHash"]}
{"id": "C18", "title": "HLen counts the fields", "statement": "HLen equals the number of fields present in the hash after every operation sequence, and the hash's bookkeeping key exists iff the hash is non-empty.", "quantifier": "all operation sequences (HDel with duplicates and absent fields included)", "why_tests_cant": "must hold after every finite sequence of operations; tests try a few sequences", "anchors": ["structure/hash.go:TxStructure.HLen", "structure/hash.go:TxStructure.HDel"]}
{"id": "C19", "title": "Descending hash reads", "statement": "HGetNDesc(key, n) returns the n greatest fields of that hash in descending field order and HGetN/HKeys the ascending counterparts; nothing of another hash is ever included.", "quantifier": "all hash contents, all n, all other keys in the store", "why_tests_cant": "must hold after every finite sequence of operations; tests try a few sequences", "anchors": ["structure/hash.go:TxStructure.HGetNDesc", "structure/hash.go:TxStructure.iterateReverseHash"]}
{"id": "C20", "title": "Hash counters", "statement": "HInc on an absent field starts from 0, otherwise adds modulo 2^64, fails without effect on a non-numeric value; HGetInt64 reads it back.", "quantifier": "all hash states, fields and steps", "why_tests_cant": "must hold after every finite sequence of operations; tests try a few sequences", "anchors": ["structure/hash.go:TxStructure.HInc", "structure/hash.go:TxStructure.HGetInt64"]}
{"id": "C21", "title": "List structure refines a double-ended queue", "statement": "After any sequence of LPush/RPush/LPop/RPop/LSet/LClear with fewer than 2^63 pushes, every operation's result is that of a plain double-ended queue: pops return pushed values in deque order, LLen is the length, LGetAll is the content.", "quantifier": "all operation sequences over all keys", "why_tests_cant": "must hold after every finite sequence of operations; tests try a few sequences", "anchors": ["structure/list.go"]}
{"id": "C22", "title": "List indexing", "statement": "LIndex(i) returns element i from the left (negative from the right) and nil out of range; LSet replaces exactly that element and reports ErrKeyNotFound out of range without changing anything.", "quantifier": "all lists and all int64 indices", "why_tests_cant": "must hold after every finite sequence of operations; tests try a few sequences", "anchors": ["structure/list.go:TxStructure.LIndex", "structure/list.go:TxStructure.LSet"]}
{"id": "C23", "title": "Structures do not interfere", "statement": "An operation on one structure key changes no string, hash or list stored under another key (or another kind under the same key), and no key outside the structure prefix.", "quantifier": "all operations, all other keys", "why_tests_cant": "must hold after every finite sequence of operations; tests try a few sequences", "anchors": ["structure/keys.go", "structure/string.go", "structure/hash.go", "structure/list.go"]}
{"id": "C24", "title": "Transactions read their own writes over a snapshot", "statement": "In a Badger transaction Get/Exists/Scan see the snapshot taken at start updated by the transaction's own earlier Set/Delete, unaffected by anything committed meanwhile; a read-only or finished transaction never changes anything.", "quantifier": "all operation sequences, all interleaved commits", "why_tests_cant": "must hold after every finite sequence of operations; tests try a few sequences", "anchors": ["provider/badger_txn.go", "provider/badger.go:Badger.NewTransaction"]}
{"id": "C25", "title": "Forward scans are exact", "statement": "A forward Scan with Prefix and Offset (Offset empty or not below the Prefix) visits exactly the live keys having the prefix and not below the offset, each once, in ascending order with current values, stopping when the callback says so.", "quantifier": "all store contents, prefixes, offsets and stopping points", "why_tests_cant": "must hold after every finite sequence of operations; tests try a few sequences", "anchors": ["provider/badger.go:scanByBadgerTxn", "provider/badger_txn.go:Txn.Scan"]}
{"id": "C26", "title": "Reverse scans are exact", "statement": "A reverse Scan with a Prefix visits the live keys having the prefix in descending order, from the greatest one when no Offset is given.", "quantifier": "all store contents, prefixes and offsets", "why_tests_cant": "must hold after every finite sequence of operations; tests try a few sequences", "anchors": ["provider/badger.go:scanByBadgerTxn"]}
{"id": "C27", "title": "Scan offset below the prefix", "statement": "A forward scan whose Offset sorts below the Prefix still visits every key with the prefix, on every provider.", "quantifier": "all store contents, all prefix/offset pairs", "why_tests_cant": "infinite input space; a test samples finitely many inputs", "anchors": ["provider/badger.go:scanByBadgerTxn", "provider/leveldb.go:LevelDB.Scan"]}
{"id": "C28", "title": "Providers agree", "statement": "The LevelDB and Badger providers return the same results for Set/Get/Exists/Delete/forward Scan sequences without metadata and with Offset inside the Prefix; LevelDB rejects metadata and reverse scans without effect.", "quantifier": "all operation sequences over both providers", "why_tests_cant": "must hold after every finite sequence of operations; tests try a few sequences", "anchors": ["provider/leveldb.go", "provider/badger.go"]}
{"id": "C29", "title": "Write batches apply in order", "statement": "A batch of Set/Delete committed through WriteBatch has the effect of applying them in order; nothing is applied before Commit or after Discard.", "quantifier": "all batches and stores", "why_tests_cant": "must hold after every finite sequence of operations; tests try a few sequences", "anchors": ["provider/badger_wb.go", "provider/leveldb_wb.go"]}
{"id": "C30", "title": "Update transactions are atomic", "statement": "RunInNewUpdateTxn applies all writes of the function iff the function and the commit succeed, otherwise none; the callback variant runs the callback exactly when the writes became durable, the cancel variant cancels exactly when commit failed.", "quantifier": "all transaction bodies, all failure points", "why_tests_cant": "must hold for a crash at any point of any history; tests cannot enumerate crash points", "anchors": ["util/util.go:RunInNewUpdateTxn", "util/util.go:RunInNewUpdateTxnWithCallback", "util/util.go:RunInNewUpdateTxnWithCancel", "util/util.go:RunInNewTxn"]}
{"id": "C31", "title": "Retry on too-big transactions loses and duplicates nothing", "statement": "TryCommitWhenTxnTooBig either reports an error or has run the operation successfully exactly once in the transaction it returns, with everything written before already committed in order.", "quantifier": "all operations, all positions of the size limit, all commit failures", "why_tests_cant": "must hold after every finite sequence of operations; tests try a few sequences", "anchors": ["util/util.go:TryCommitWhenTxnTooBig"]}
{"id": "C32", "title": "Wire messages round trip", "statement": "Every protocol message marshals to bytes that unmarshal into an equal message, and Size equals the marshalled length.", "quantifier": "all messages with all field values", "why_tests_cant": "infinite input space; a test samples finitely many inputs", "anchors": ["pb/mondis.pb.go:Marshal", "pb/mondis.pb.go:Unmarshal", "pb/mondis.pb.go:Size"]}
{"id": "C33", "title": "Wire decoders never crash", "statement": "Unmarshal returns a message or an error for every payload received from the network; it never panics.", "quantifier": "all payloads", "why_tests_cant": "infinite input space; a test samples finitely many inputs", "anchors": ["pb/mondis.pb.go:Unmarshal", "pb/mondis.pb.go:skipMondis"]}
{"id": "C34", "title": "Unknown fields are skipped", "statement": "Unmarshalling a payload with additional unknown fields yields the same known field values.", "quantifier": "all messages and all well-formed unknown fields", "why_tests_cant": "infinite input space; a test samples finitely many inputs", "anchors": ["pb/mondis.pb.go:skipMondis"]}
{"id": "C35", "title": "Remote single operations equal local ones", "statement": "Set/Get/Exists/Delete/Scan issued through the client outside a transaction return what the same call on the server's store returns (missing keys as ErrKeyNotFound, other failures as errors) and have the same effect.", "quantifier": "all operation sequences over all store states", "why_tests_cant": "must hold after every finite sequence of operations; tests try a few sequences", "anchors": ["client/client.go", "server/cmd_set.go", "server/cmd_get.go", "server/cmd_exists.go", "server/cmd_delete.go", "server/cmd_scan.go", "server/common.go"]}
{"id": "C36", "title": "Remote transactions accept any sequence of operations", "statement": "Inside a client transaction a Set may be issued at any point and behaves as a Set on the server transaction.", "quantifier": "all sequences of operations in one transaction", "why_tests_cant": "must hold after every finite sequence of operations; tests try a few sequences", "anchors": ["server/common.go:handleTxnContinuedFrame", "client/client_txn.go:Txn.Set"]}
{"id": "C37", "title": "Remote transaction scans are independent", "statement": "Each Scan of a client transaction returns the entries selected by its own options, unaffected by earlier requests of the same transaction.", "quantifier": "all sequences of requests in one transaction", "why_tests_cant": "must hold after every finite sequence of operations; tests try a few sequences", "anchors": ["server/common.go:handleTxnContinuedFrame", "server/common.go:handleScan"]}
{"id": "C38", "title": "Remote transactions: reads, deletes, commit, discard", "statement": "For every client transaction whose only Set is its first request and that scans at most once (and decodes fresh request fields), each reply equals the reply of the same operation on a server-side transaction; Commit makes exactly those effects visible, Discard or a dropped stream none.", "quantifier": "all such request sequences, all disconnect points", "why_tests_cant": "must hold for a crash at any point of any history; tests cannot enumerate crash points", "anchors": ["server/common.go:handleTxnContinuedFrame", "client/client_txn.go"]}
{"id": "C39", "title": "Scan limits are honoured", "statement": "A remote scan returns at most min(Limit,1000) entries, exactly the first so many of the full scan, and none when Limit <= 0.", "quantifier": "all limits, all store states", "why_tests_cant": "infinite input space; a test samples finitely many inputs", "anchors": ["client/client.go:Client.Scan", "server/common.go:handleScan"]}
{"id": "C40", "title": "Read-only client transactions cannot mutate", "statement": "Set/Delete in a read-only client transaction fail with ErrMutateForROTxn without sending anything; committing or discarding a transaction that sent nothing sends nothing.", "quantifier": "all operation sequences", "why_tests_cant": "must hold after every finite sequence of operations; tests try a few sequences", "anchors": ["client/client_txn.go"]}
{"id": "C41", "title": "Error codes map to client errors", "statement": "Missing key and too-big-transaction conditions on the server surface at the client as ErrKeyNotFound and ErrTxnTooBig for every operation that can produce them.", "quantifier": "all operations and server conditions", "why_tests_cant": "infinite input space; a test samples finitely many inputs", "anchors": ["client/client.go", "client/client_txn.go", "server/code.go", "server/common.go:handleTxnSet", "server/common.go:handleTxnDelete"]}
{"id": "C42", "title": "Document ids are never handed out twice", "statement": "All ids returned by one Sequence over its lifetime are distinct as long as callers put back only unused ids, also across crashes and restarts from the stored value.", "quantifier": "all histories of Next/PutBack/Release/Close/ReNew and crash points, all bandwidths", "why_tests_cant": "must hold for a crash at any point of any history; tests cannot enumerate crash points", "anchors": ["document/meta/sequence/sequence.go"]}
{"id": "C43", "title": "NextN ranges do not overlap later ids", "statement": "The ids (start,end] returned by NextN are disjoint from every id returned before or afterwards.", "quantifier": "all histories with NextN", "why_tests_cant": "must hold after every finite sequence of operations; tests try a few sequences", "anchors": ["document/meta/sequence/sequence.go:Sequence.NextN"]}
{"id": "C44", "title": "Two live allocators on one stored sequence", "statement": "Two processes each holding a Sequence on the same stored counter never return the same id, even if one of them is closed.", "quantifier": "all interleavings of two instances", "why_tests_cant": "must hold after every finite sequence of operations; tests try a few sequences", "anchors": ["document/meta/sequence/sequence.go:Sequence.ReleaseRemaining", "document/meta/sequence/sequence.go:Sequence.ReNew"]}
{"id": "C45", "title": "Sequence release wastes nothing", "statement": "After Close with no put-back ids, a new Sequence on the same counter continues with the id following the last one handed out.", "quantifier": "all histories", "why_tests_cant": "must hold after every finite sequence of operations; tests try a few sequences", "anchors": ["document/meta/sequence/sequence.go:Sequence.Close", "document/meta/sequence/sequence.go:Sequence.ReleaseRemaining"]}
{"id": "C46", "title": "Clearing one collection's sequence affects only it", "statement": "Sequence.Clear on a hash-backed sequence resets that sequence and leaves the rest of the database's metadata intact.", "quantifier": "all metadata states", "why_tests_cant": "must hold after every finite sequence of operations; tests try a few sequences", "anchors": ["document/meta/sequence/sequence.go:Sequence.Clear", "document/meta/did_sequence.go"]}
{"id": "C47", "title": "Old allocator: uniqueness and release", "statement": "The document package's own Sequence never returns an id twice across crashes; ReleaseRemaining returns the unused part of the lease.", "quantifier": "all histories and crash points", "why_tests_cant": "must hold for a crash at any point of any history; tests cannot enumerate crash points", "anchors": ["document/sequence.go"]}
{"id": "C48", "title": "Document keys: disjoint, ordered, decodable", "statement": "Document, index and metadata keys of different collections/kinds never collide; document keys of one collection sort by document id; key decoding inverts encoding and rejects other keys.", "quantifier": "all collection ids, document ids, names", "why_tests_cant": "infinite input space; a test samples finitely many inputs", "anchors": ["document/dml/keys.go", "document/keys.go", "document/keyspace/keyspace.go"]}
{"id": "C49", "title": "Collection CRUD refines a map per collection", "statement": "Update/Upsert/Insert(Managed)/Get/GetMany/GetAll/Delete/DeleteAll/Count on a collection behave as a map from document id to document and never affect other collections.", "quantifier": "all operation sequences on all collections", "why_tests_cant": "must hold after every finite sequence of operations; tests try a few sequences", "anchors": ["document/dml/collection.go"]}
{"id": "C50", "title": "Insert never destroys a document", "statement": "InsertOne stores the document under an id no existing document has, and inserting into a missing collection is an error.", "quantifier": "all collection states and histories", "why_tests_cant": "must hold after every finite sequence of operations; tests try a few sequences", "anchors": ["document/dml/collection.go:Collection.InsertOne"]}
{"id": "C51", "title": "Document id range of a collection", "statement": "GetDidRange returns the least and greatest id of the collection's documents, and an error/none when it is empty, whatever other data the store holds.", "quantifier": "all store states", "why_tests_cant": "must hold after every finite sequence of operations; tests try a few sequences", "anchors": ["document/dml/collection.go:Collection.GetDidRange"]}
{"id": "C52", "title": "Failed insert returns its id", "statement": "When the transaction of an InsertOne fails to commit, the id is given back and reused; when it commits, the id is never reused.", "quantifier": "all transactions and failure points", "why_tests_cant": "must hold for a crash at any point of any history; tests cannot enumerate crash points", "anchors": ["document/dml/collection.go:Collection.InsertOne", "document/txn/txn.go"]}
{"id": "C53", "title": "Global ids are unique", "statement": "The ids and ranges that GenGlobalID/GenGlobalIDs hand out in committed transactions, run one after another or interleaved in any way, are pairwise disjoint.", "quantifier": "all histories", "why_tests_cant": "must hold after every finite sequence of operations; tests try a few sequences", "anchors": ["document/meta/meta.go:Meta.GenGlobalID", "document/meta/meta.go:Meta.GenGlobalIDs"]}
{"id": "C54", "title": "Schema metadata refines nested maps", "statement": "Create/Update/Drop/Get/List of databases and collections behave as a map of databases each with a map of collections, rejecting duplicates and missing parents without effect.", "quantifier": "all operation sequences", "why_tests_cant": "must hold after every finite sequence of operations; tests try a few sequences", "anchors": ["document/meta/meta.go"]}
{"id": "C55", "title": "DDL jobs are processed first-in first-out", "statement": "EnQueue/DeQueue/GetDDLJob/UpdateDDLJob/GetAllDDLJobsInQueue behave as a FIFO queue; the schema version only grows.", "quantifier": "all operation sequences", "why_tests_cant": "must hold after every finite sequence of operations; tests try a few sequences", "anchors": ["document/meta/meta.go:Meta.EnQueueDDLJob", "document/meta/meta.go:Meta.DeQueueDDLJob"]}
{"id": "C56", "title": "DDL history lists jobs newest first", "statement": "GetLastNHistoryDDLJobs(n) returns the n finished jobs with the greatest ids in descending order; each finished job is found by id.", "quantifier": "all histories", "why_tests_cant": "must hold after every finite sequence of operations; tests try a few sequences", "anchors": ["document/meta/meta.go:Meta.AddHistoryDDLJob", "document/meta/meta.go:Meta.GetLastNHistoryDDLJobs"]}
{"id": "C57", "title": "CreateSchema assigns fresh ids", "statement": "CreateSchema without indices gives schema, collections and job pairwise different ids never used before and enqueues exactly one job.", "quantifier": "all inputs and metadata states", "why_tests_cant": "must hold after every finite sequence of operations; tests try a few sequences", "anchors": ["document/ddl/ddl_api.go:DDL.CreateSchema"]}
{"id": "C58", "title": "CreateSchema supports indices", "statement": "CreateSchema with indices on its collections enqueues a job and does not panic.", "quantifier": "all inputs", "why_tests_cant": "infinite input space; a test samples finitely many inputs", "anchors": ["document/ddl/ddl_api.go:DDL.CreateSchema"]}
{"id": "C59", "title": "DDL jobs take effect exactly once", "statement": "Whatever the crash points of the worker, a create-schema job at the head of the queue creates its database and collections once, bumps the schema version once, and ends once in the history.", "quantifier": "all crash points and restarts", "why_tests_cant": "must hold for a crash at any point of any history; tests cannot enumerate crash points", "anchors": ["document/ddl/ddl_worker.go"]}
{"id": "C60", "title": "A failing DDL job does not block the queue", "statement": "After a job fails (e.g. its database already exists) later jobs are still processed.", "quantifier": "all queues", "why_tests_cant": "must hold after every finite sequence of operations; tests try a few sequences", "anchors": ["document/ddl/ddl_worker.go:worker.handleJobQueue", "document/model/model.go:Job"]}
{"id": "C61", "title": "AddIndex state machine", "statement": "An add-index job moves the index forward through its states one at a time, one schema version per transition, and eventually finishes.", "quantifier": "all runs of the worker", "why_tests_cant": "must hold after every finite sequence of operations; tests try a few sequences", "anchors": ["document/ddl/ddl_worker.go:worker.onAddIndex"]}
{"id": "C62", "title": "Schema check detects every relevant change", "statement": "Check(start cache, collections) accepts iff no schema diff between the transaction's start version and the current version touches the given collections and the diffs are known.", "quantifier": "all caches and diff histories", "why_tests_cant": "must hold after every finite sequence of operations; tests try a few sequences", "anchors": ["document/schema/handle.go:Handle.Check"]}
{"id": "C63", "title": "Schema check releases its lock", "statement": "After any call of Check, a later Update of the schema cache can proceed.", "quantifier": "all call sequences", "why_tests_cant": "must hold after every finite sequence of operations; tests try a few sequences", "anchors": ["document/schema/handle.go:Handle.Check"]}
{"id": "C64", "title": "Incremental schema load equals full load", "statement": "Applying schema diffs to a cache yields the same schema as reloading everything from the store, keeps versions consecutive and keeps at most 100 diffs.", "quantifier": "all caches and diff lists", "why_tests_cant": "must hold after every finite sequence of operations; tests try a few sequences", "anchors": ["document/schema/metacache.go", "document/domain/domain.go"]}
{"id": "C65", "title": "Schema reload follows the store", "statement": "reloadSchema leaves the cache at the stored schema version, never moves it backwards, and does nothing when already current.", "quantifier": "all stores and cache states", "why_tests_cant": "must hold after every finite sequence of operations; tests try a few sequences", "anchors": ["document/domain/domain.go:Domain.reloadSchema"]}
{"id": "C66", "title": "Document transactions validate their schema", "statement": "A document transaction commits only if its schema check passes; cancel functions run exactly once iff the commit fails; read-only transactions never commit anything.", "quantifier": "all transactions", "why_tests_cant": "must hold for a crash at any point of any history; tests cannot enumerate crash points", "anchors": ["document/txn/txn.go"]}
{"id": "C67", "title": "Collection name to id mapping is stable (old package)", "statement": "getCollectionID returns the same id for a name for ever, and different names get different ids.", "quantifier": "all histories", "why_tests_cant": "must hold after every finite sequence of operations; tests try a few sequences", "anchors": ["document/db.go", "document/collection.go"]}
{"id": "C68", "title": "Index keys ignore field order (old package)", "statement": "The key recording an index's columns is the same for every order of its fields, different for different field sets, and re-creating an index leaves no orphan entry.", "quantifier": "all index definitions and histories", "why_tests_cant": "infinite input space; a test samples finitely many inputs", "anchors": ["document/keys.go:EncodeCollectionColumnsIndexedKey", "document/collection.go:Collection.CreateIndex"]}
{"id": "C69", "title": "Deleting all documents works (old package)", "statement": "DeleteAll with no transaction deletes every document of the collection.", "quantifier": "all stores", "why_tests_cant": "must hold after every finite sequence of operations; tests try a few sequences", "anchors": ["document/collection.go:Collection.DeleteAll"]}
{"id": "C70", "title": "Model objects are deep-copied", "statement": "Clone of database/collection/index info yields an equal object and later updates of the clone through its methods leave the original unchanged.", "quantifier": "all objects, all later updates", "why_tests_cant": "must hold after every finite sequence of operations; tests try a few sequences", "anchors": ["document/model/model.go"]}
{"id": "C71", "title": "DDL input validation", "statement": "Validate accepts a DDL input iff the names it carries are non-empty and each of its indices has a name and at least one column; an input that is not accepted is rejected without effect.", "quantifier": "all inputs", "why_tests_cant": "infinite input space; a test samples finitely many inputs", "anchors": ["document/ddl/input.go"]}
{"id": "C72", "title": "No lost updates between transactions", "statement": "If an update transaction commits at least one write, every key it read from its snapshot (by Get, Exists or as a scanned item) still holds, at commit time, the entry it held when the transaction began; otherwise Commit fails and changes nothing. Two transactions that read and then write the same key therefore never both commit.", "quantifier": "all histories of any number of concurrent transactions on one database", "why_tests_cant": "depends on every interleaving of begins, reads, writes and commits", "anchors": ["provider/badger.go:NewTransaction", "provider/badger_txn.go:Commit", "provider/badger_txn.go:Get"]}
{"id": "C73", "title": "Expiry and tags", "statement": "A value stored with a TTL is returned with its tag and expiry time until the clock reaches that time and never afterwards; a value stored with a tag but no TTL stays until deleted.", "quantifier": "all keys, values, TTLs, tags and clock readings", "why_tests_cant": "ranges over all clock readings and TTLs", "anchors": ["provider/badger_txn.go:Set", "provider/badger_txn.go:Get", "provider.go:VMetaReq"]}
{"id": "C74", "title": "Documents of the older package behave as finite maps", "statement": "A collection of the older document package behaves as a finite map from int64 ids to documents: UpdateOne, UpsertOne, InsertOneManaged, DeleteOne, GetOne, GetMany, Count and DeleteAll return what that map says and change it accordingly, alone or inside a caller's transaction, for any number of collections at once; operations of a discarded or failed transaction, and operations after Close, change nothing.", "quantifier": "all programs of single operations, transactions (committed, failed or discarded) and other transactions, over any collections, ids (negative ones included) and documents", "why_tests_cant": "ranges over all programs and all ids; a test runs finitely many", "anchors": ["document/collection.go:updateFunc", "document/collection.go:GetMany", "document/collection.go:Count", "document/db.go:checkState"]}
{"id": "C75", "title": "InsertOne of the older package destroys no document", "statement": "When InsertOne returns an id, no document of the collection had that id and no other InsertOne ever returns it; in its own transaction it adds exactly its document, and nothing if it fails.", "quantifier": "all interleavings of any number of Collection objects in any processes, with crashes, failed writes, Close and reopening", "why_tests_cant": "the write is blind, so this depends on every schedule of the id counter", "anchors": ["document/collection.go:InsertOne", "document/sequence.go:Next", "document/sequence.go:ReleaseRemaining"]}
{"id": "C76", "title": "The index catalogue of the older package survives everything", "statement": "After any history, the indexes a (re)opened collection reads are exactly those whose CreateIndex succeeded and whose DropIndex has not, with the definitions given; CreateIndex succeeds only on columns no index has; DropIndex reports whether the index existed; no two CreateIndex calls return the same id.", "quantifier": "all interleavings of any number of DB objects in any processes, with crashes, failed commits, Close and reopening", "why_tests_cant": "depends on the interleaving of check, id allocation and commit of concurrent calls, and on crash points", "anchors": ["document/collection.go:CreateIndex", "document/collection.go:DropIndex", "document/collection.go:getIndexes", "document/keys.go"]}
{"id": "C77", "title": "GetIndexes of the older package agrees with the store", "statement": "GetIndexes returns the indexes that exist, with the definitions they were created with, the same before and after a restart.", "quantifier": "all interleavings of calls on one collection", "why_tests_cant": "the map is updated after the commit, outside the transaction", "anchors": ["document/collection.go:GetIndexes", "document/collection.go:newCollection"]}
{"id": "C78", "title": "A visible collection has an allocator of document ids", "statement": "In a process whose Domain.Init succeeded, any collection the schema cache shows has an allocator from then on until the process ends: it leases ids from that collection's own counter in the store, the store knows the collection, and asking for an id gives one unless the store fails. This needs Lease = 0 and one process at a time on the store: with the periodic reload, or with a second process running the schema changes, a collection is visible that has no allocator.", "quantifier": "all histories of Init, CreateSchema, AddIndex, worker iterations, allocations, other transactions, failed commits and crashes at any point; all later moments of the same process", "why_tests_cant": "The allocator is created by the worker after its commit and by Init after a crash; the windows between commit, allocator, reload and crash cannot be enumerated by tests.", "anchors": ["document/dml/sequence.go:GetSequence,CreateSequence", "document/ddl/ddl.go:Init", "document/ddl/ddl_worker.go:onCreateSchema", "document/domain/domain.go:Init,onChange,reloadInLoop"]}
{"id": "C79", "title": "A restarted process always starts, and the worker never sticks at an allocator", "statement": "Whatever happened before, a crash at any point included, a new process's Domain.Init succeeds if its commits do, and then shows every collection of the store, each with an allocator. A worker in the middle of creating allocators gets through as soon as its commits succeed and no transaction holds the schema; an attempt fails only because its commit does, never because the allocator exists.", "quantifier": "all histories (as C78) followed by a crash and Init with any order of map iteration; all points inside the worker's after-commit function", "why_tests_cant": "Needs every crash point between the allocators of one job and every earlier history.", "anchors": ["document/ddl/ddl.go:Init", "document/dml/sequence.go:CreateSequence", "document/ddl/ddl_worker.go:onCreateSchema", "document/domain/domain.go:Init,mustReload"]}
{"id": "C80", "title": "Init can be tried again, and a process can open several stores (refuted)", "statement": "A caller may call Domain.Init again after it failed, and may open two stores in one process. Refuted: the table of allocators is one per process and CreateSequence refuses an id it has, so Init never succeeds on a store with a collection whose id is in the table; after an Init that failed behind its first allocator no later Init of that process succeeds; and the worker of a second store, whose ids start from 1 again, waits for ever for an allocator whose id is taken.", "quantifier": "all stores, tables and orders of iteration; all continuations of the same process", "why_tests_cant": "'No later Init succeeds' and 'waits for ever' range over all continuations.", "anchors": ["document/dml/sequence.go:CreateSequence", "document/ddl/ddl.go:Init", "document/ddl/ddl_worker.go:onCreateSchema"]}
{"id": "C81", "title": "When CreateSchema has returned, the schema is usable in the process", "statement": "In an initialised process, once the wait of a CreateSchema call ends with success, the schema cache shows the database and every collection asked for, with its id and an allocator of document ids. Needs Lease = 0 and one process at a time: if another process works on the job the call returns although this process's cache has no such database.", "quantifier": "all histories as in C78, calls of this process and of earlier ones", "why_tests_cant": "Depends on the order of commit, allocator, reload and history write for every interleaving and crash.", "anchors": ["document/ddl/ddl_api.go:CreateSchema", "document/ddl/ddl_worker.go:checkJob", "document/ddl/ddl_worker.go:handleJobQueue", "document/domain/domain.go:onChange"]}
{"id": "C82", "title": "A collection's name and id belong together for ever, and nothing visible is forgotten", "statement": "In every process over the life of a store, the name of a collection (database, collection) stands for one id, the same in all processes; no two names ever stand for the same id; and a collection that was visible once is visible, under the same id, in every later process whose Init succeeded, whatever crashed in between.", "quantifier": "all histories of CreateSchema, AddIndex, worker iterations, allocator attempts, reloads, Next and PutBack calls, other transactions, failed commits and crashes at every point; every pair of moments in them (one process at a time, Lease 0)", "why_tests_cant": "Relates two arbitrary moments of an arbitrary history with crashes between.", "anchors": ["document/ddl/ddl_api.go:CreateSchema", "document/ddl/ddl_worker.go:onCreateSchema", "document/domain/domain.go:Init", "document/schema/metacache.go"]}
{"id": "C83", "title": "Document ids given out by any process never collide", "statement": "Over the life of a store, across crashes, restarts and failed commits, the document ids given out by GetSequence(collection).Next() and not put back are pairwise different per collection and positive; an id that is given out is not in use; if nothing is put back all ids ever given out are different. Needs each id to be put back at most once (an id put back twice is given out twice).", "quantifier": "all histories as in C82, with Next and PutBack calls anywhere in them, fewer than 2^63/1000 leases", "why_tests_cant": "Needs every crash point of every history: one lease that is forgotten is enough to hand an id out twice.", "anchors": ["document/dml/sequence.go:GetSequence,CreateSequence", "document/meta/did_sequence.go:NewDocIDSequence", "document/meta/sequence/hash.go:NewHash", "document/meta/sequence/sequence.go", "document/ddl/ddl.go:Init"]}
{"id": "C84", "title": "Documents by name, end to end, across processes", "statement": "Starting from an empty store, whatever schema creations, index requests, worker steps, crashes, restarts, failed leases and failed commits happen, every answer of the collection methods (InsertOne, UpdateOne, UpsertOne, InsertOneManually, DeleteOne, GetOne, GetMany, GetAll, Count, DeleteAll; alone or inside a caller's transaction that is committed, fails or is discarded) is the answer of finite maps kept under (database name, collection name): writes to one name are seen under no other, a failed or discarded transaction leaves no document behind, InsertOne stores under a positive id not given to any other document of that collection. If callers choose no positive ids themselves, InsertOne never overwrites a document. A document whose InsertOne succeeded is returned by GetOne of its id in this and every later initialised process, until a call names that id to write it or DeleteAll is called on the collection.", "quantifier": "all histories of process events (C78) and calls, all names, data, fault choices and crash points; fewer than 2^63/1000 leases; one process at a time, Lease 0; each call or transaction is one step (interleavings are C50, C52, C63, C66, C72)", "why_tests_cant": "It combines the key encoding, the allocators, the schema cache, the worker, Init after a crash and the transaction layer; a document lost or two names sharing documents shows only for particular histories.", "anchors": ["document/dml/collection.go", "document/dml/sequence.go", "document/txn/txn.go:Commit", "document/domain/domain.go:Init", "document/ddl/ddl.go:Init", "document/ddl/ddl_worker.go", "document/keyspace"]}
{"id": "C85", "title": "Transactions that do not scan are serializable in commit order", "statement": "In any history of concurrent transactions on the Badger provider, if the update transactions that committed writes used only Get, Exists, Set and Delete, then running exactly these transactions one after the other, in the order of their commits, gives each of them the same answers to all its calls and leaves the same database contents. Every other transaction (read-only, discarded, refused at Commit, still open; scanning or not) got the answers it would have got running alone right after the transactions committed before it began. The guarantee does not extend to transactions that scan and then write: two of them can both commit although no serial order explains their answers (phantoms).", "quantifier": "all histories of any number of interleaved transactions with any calls, size-limit failures, conflicts, failed commits and discards, in which no entry has a TTL or the clock does not move", "why_tests_cant": "a test runs a few interleavings; serializability is a claim about every interleaving of arbitrarily many transactions", "anchors": ["provider/badger.go:NewTransaction", "provider/badger_txn.go:Txn", "provider.go:ProviderTxn"]}
{"id": "C86", "title": "Closing the old document DB waits for the operations inside and lets none in afterwards", "statement": "For any number of goroutines calling DB.Collection, the collection operations and DB.Close in any interleaving: once a Close has returned, nothing the DB still does changes the store or the set of collections, and every call made from then on is refused at once with ErrAlreadyClosed (or the name error); Close releases the sequences only after the last operation that entered has finished, and no operation enters or touches the store after the first release; when any Close (also a second, concurrent one) has returned, the sequence of every collection ever handed out was released; and nothing deadlocks: while some call has not returned some goroutine can run, without new calls they cannot run forever, and every Close can return.", "quantifier": "all numbers of goroutines, all calls with arbitrary finite bodies over any store, all interleavings of their steps", "why_tests_cant": "the races between the state check, the closer and Close are decided by the scheduler; a test sees a few schedules", "anchors": ["document/db.go:Close", "document/db.go:checkState", "document/db.go:Collection", "document/collection.go:InsertOne", "document/collection.go:close"]}
{"id": "C87", "title": "Concurrent document transactions are atomic and isolated", "statement": "Any number of clients may run document operations at the same time, each in a transaction of its own or in one shared by several calls (UpdateOne, UpsertOne, InsertOne, InsertOneManaged, DeleteOne, GetOne, GetMany, GetAll, Count, DeleteAll), while sequences are leased and the schema changes. The transactions that committed changes got exactly the answers they would have got had they run one after the other, whole, in the order of their commits (an order that respects real time), on plain maps from ids to documents, provided they found their documents by id. Every other transaction - read-only, refused at Commit, discarded, still open - got the answers of the documents as they were at the single moment it began, and left no trace. DeleteAll (which finds its documents by a scan) should be atomic as well: it is not, even against single-call transactions.", "quantifier": "all histories: any number of transactions, any interleaving of their begins, calls, commits and discards, conflicts, refused schema checks and failing storage writes, other transactions that write no document, any documents and ids", "why_tests_cant": "The interleavings, conflict outcomes and crash/refusal points of concurrent transactions cannot be enumerated; anomalies such as write skew or a lost insert need a specific schedule.", "anchors": ["document/dml/collection.go: UpdateOne, UpsertOne, InsertOne, InsertOneManaged, DeleteOne, GetOne, GetMany, GetAll, Count, DeleteAll, updateFunc, deleteAllWithTxn", "document/dml/base.go: RunInNewUpdateTxn", "document/txn/txn.go: NewTxn, Commit, Discard", "provider/badger_txn.go"]}
{"id": "C88", "title": "Strings, hashes and lists are strictly serializable under concurrency", "statement": "Any number of clients work on strings, hashes and lists under one prefix through update and read-only transactions that overlap in any way, with conflicts at Commit, failing commits, discards and other users of the database. All transactions whose Commit returned nil can be put in one order that respects real time (nothing stands before a transaction that had ended before it began) in which each gets exactly the answers of plain strings, ordered maps and lists executing whole transactions one after the other; every refused, discarded or unfinished transaction got the answers of one moment of that order, including everything that had committed before it began, and left no trace; and reads after the history return what the order yields. The only condition: a committed transaction that uses HKeys, HGetN, HGetAll or HGetNDesc only reads. HClear, which also scans, needs no condition because it first reads the field count. Refuted without the condition: two transactions that each HKeys an empty hash and HSet into the other's hash both commit.", "quantifier": "all prefixes not starting with '!', all histories of begins, calls, commits (with or without I/O failure), discards, foreign commits and clock ticks, all arguments, as long as fewer than 2^63 elements are ever added", "why_tests_cant": "the claim ranges over all interleavings of all transactions; conflicts depend on which keys each operation happened to read, which no finite set of schedules covers", "anchors": ["structure/string.go", "structure/hash.go: updateHash, HDel, HClear, HKeys, HGetAll", "structure/list.go: listPush, listPop, LClear, LSet", "provider/badger_txn.go: Commit, Scan"]}
{"id": "C89", "title": "Overlapping schema changes take effect once and in order", "statement": "Let any number of processes share a store, each with a DDL worker, and let the transactions of CreateSchema and AddIndex requests, of worker iterations and of document-id allocators overlap arbitrarily: each takes its snapshot at one moment and commits at a later one, may conflict, fail to commit or never be ended, and processes may crash. Then at every moment the accepted requests, in the order of their answers, split into finished ones and waiting ones; the stored databases, collections, schema diffs and schema version are exactly the effects of the finished ones (and of the first waiting one if committed), each once and in order; all ids handed out are different; a caller is answered exactly when its job is finished and stays answered, its database and collections staying readable. An ended worker iteration either changed nothing and has nothing to do afterwards, or did exactly what a worker alone would have done at its commit; an ended request is refused without a trace or answered with the job asked for.", "quantifier": "all stores without schema metadata, all interleavings of begins, ends, drops, crashes and other commits by any number of processes, all requests with valid UTF-8 names, all map orders, within the 2^63 id budget", "why_tests_cant": "The interleavings of snapshots and commits of several processes are unbounded; two workers picking the same job, or a request committing between a worker's snapshot and its commit, need exact timing.", "anchors": ["document/ddl/ddl_worker.go:handleJobQueue,runJob,finishJob", "document/ddl/ddl_api.go:CreateSchema,AddIndex", "document/ddl/util.go:checkDBNameNotExists,checkIndexNameNotExists", "document/meta/meta.go", "util/util.go:RunInNewUpdateTxn"]}
{"id": "C90", "title": "Schema caches of concurrent processes are past schemas and never go back", "statement": "Let any number of processes share a store while schema changes of all of them overlap arbitrarily, processes crash and restart, and each process reloads its schema cache at any moments, a reload reading the store at one moment and publishing at a later one. Then at every moment the cache of every process is exactly the schema (version, databases, collections, indices) the store held at one single earlier moment; Domain.DB, DB.Collection and Collection.Index succeed exactly for the names stored at that moment and otherwise give their not-exists errors; a reload shows exactly what the store held when it began; a cache never goes back to an older version while its process lives, and a collection it showed keeps its id; a CreateSchema that was answered is visible in every process that began a reload after the answer, whichever process ran the job.", "quantifier": "all histories of overlapping DDL transactions, reloads, document transactions' checks, failed commits and crashes of any number of processes; all names", "why_tests_cant": "The interleavings of reloads with DDL transactions of several processes are unbounded; a test fixes one.", "anchors": ["document/domain/domain.go:reload,reloadSchema,tryLoadSchemaDiff,DB", "document/dml/db.go:NewDB,Collection", "document/dml/collection.go:Index", "document/schema/metacache.go", "document/schema/handle.go:Update,Get"]}
{"id": "C91", "title": "Schema checks refuse a document transaction only after more than 100 schema changes, and never leave the lock held", "statement": "In the same histories, a document transaction that refers to collections its starting schema showed passes the schema check at Commit exactly when its process's schema is at most 100 changes newer than the one it started with; a transaction started before the process had any schema is refused once it has one; otherwise the check neither fails nor panics, and whatever its outcome it leaves no lock held, so a reload is never blocked by document transactions and never fails.", "quantifier": "all histories of C90; all open transactions and sets of collections they refer to", "why_tests_cant": "Needs every history of schema changes between start and commit, across full and incremental reloads and trimming of remembered changes.", "anchors": ["document/schema/handle.go:Check,Update", "document/schema/metacache.go:ApplyDiffs", "document/txn/txn.go:NewTxn,Commit,ReferredCollections", "document/domain/domain.go:reloadSchema"]}
{"id": "C92", "title": "Concurrent remote clients over failing connections are served serializably", "statement": "Many clients of one server, in any interleaving of their transactions and single calls, with requests that never arrive and replies that are lost with the connection: the transactions that wrote and whose Commit was answered with success, the single writes answered with success, and some choice of those whose Commit or single write got no answer, are explained by a serial history of local transactions next to the store with the same calls, the same answers and the same final store. Every open transaction got the answers of a transaction run alone on the serial state reached when its first request came. A single call that is answered has the answer and the effect of the local call at that moment. Restrictions: the programs stay in the subset of remote calls that work at all (C36, C37 say which do not), writing transactions do not scan, and either no entry has a lifetime or the clock stands still.", "quantifier": "all numbers of clients, all interleavings of requests, all fates of each request (answered, reply lost, not received), all conflicts, too-big refusals and I/O failures, all keys and values below 2^40 bytes", "why_tests_cant": "The claim is about every schedule of several clients combined with every point at which a connection may break; and its conclusion is the existence of one serial explanation of all answers.", "anchors": ["client/client_txn.go:Set,Get,Exists,Delete,Scan,Commit,Discard", "client/client.go:Set,Get,Exists,Delete,Scan", "server/common.go:handleTxnContinuedFrame,handleTxnSet,handleTxnDelete,handleTxnCommit,handleScan", "server/cmd_set.go", "server/cmd_get.go", "server/cmd_exists.go", "server/cmd_delete.go", "server/cmd_scan.go", "provider/badger.go", "provider/badger_txn.go"]}
{"id": "C93", "title": "Documents by name stay serializable while everything overlaps", "statement": "Any number of processes share one store. Their schema requests, schema workers, schema reloads, crashes and restarts, and document transactions that name a database and a collection overlap freely. Then: (1) the document transactions that committed changes got exactly the answers they would have got one after the other, in the order of their commits, on one map from ids to documents per database name and collection name, each seeing the collections its process showed when it began; the order respects real time; (2) every other transaction - under way, discarded, refused, or lost with its process - got the answers of the documents as the transactions committed before it began had left them, plus its own changes; (3) a collection whose CreateSchema was answered is seen by every transaction begun in a process that has started and ended a reload since; (4) Commit fails with the schema-conflict error exactly when the process's schema moved on by more than 100 changes between the beginning of the transaction and the check, or came into being in between; otherwise it succeeds, or reports a conflict or a storage failure, and a Commit that does not succeed changes nothing.", "quantifier": "all histories on a new database: any number of processes, transactions and schema changes, any interleaving of begin, call, check, commit, discard, reload begin and end, worker iterations, crashes, storage failures; any names, ids and documents (committed writing transactions find their documents by id, see C87)", "why_tests_cant": "The claim joins the schedules of several kinds of transactions in several processes with crash points and stale caches; an anomaly (a document landing in another collection, a read of a half-committed state) needs one particular schedule out of unboundedly many.", "anchors": ["document/domain/domain.go: reload, reloadSchema, tryLoadSchemaDiff", "document/txn/txn.go: NewTxn, Commit, Discard", "document/schema/handle.go: Check, Update", "document/dml/collection.go: InsertOne, UpdateOne, UpsertOne, DeleteOne, GetOne, GetMany, GetAll, Count", "document/ddl/ddl_api.go: CreateSchema", "document/ddl/ddl_worker.go", "provider/badger_txn.go"]}
{"id": "C94", "title": "Ids leased by allocators of overlapping processes never collide", "statement": "The document-id allocators of any number of processes lease ranges of ids of a collection in transactions of their own, which may overlap with each other, with schema requests, with DDL workers and with document transactions. Whatever conflicts, fails or is never finished, and whichever processes die, every answered lease of a collection lies strictly above all leases of that collection answered before it, so no id is ever leased twice (as long as no allocator returns the rest of a lease: for that see C44).", "quantifier": "all databases without schema metadata in which nothing expires, all histories of begin/end/give-up/crash events of CreateSchema, AddIndex, worker and lease transactions and of other commits that write no metadata, all lease sizes 1..B whose total stays below 2^63, all interleavings and failing commits", "why_tests_cant": "the property is about all interleavings of transactions of several processes with crashes at every point; a collision needs a particular overlap and shows as a document silently overwritten much later", "anchors": ["document/meta/sequence/hash.go: NewHash, renewLeaseFunc", "document/meta/sequence/sequence.go: Next, NextN", "structure/hash.go: HInc, updateHash", "util/util.go: RunInNewUpdateTxn", "provider/badger_txn.go"]}
{"id": "C95", "title": "A commit is refused with a conflict exactly when something it read was changed meanwhile", "statement": "Commit of an update transaction reports ErrTxnConflict if and only if the transaction wrote something and a transaction that committed after it began wrote a key this transaction had looked at in the database: by Get or Exists (found or not, unless it had itself written the key before) or as an item handed to it by a scan. Otherwise it succeeds (or fails with the error of the disk). In particular a transaction that only wrote, that looked only at keys nobody changed, or that is read-only is never refused; keys a scan did not hand out do not count.", "quantifier": "all histories of begin/operation/commit/discard/clock events of any number of transactions from a fresh database, all keys, values, expiries, scan options and size limits, all failing commits", "why_tests_cant": "both directions of the equivalence range over all interleavings; spurious conflicts show as livelock under load, missed conflicts as lost updates, neither of which a sequential test exhibits", "anchors": ["provider/badger_txn.go: Commit, Get, Exists, Scan, Set, Delete", "provider/badger.go: NewTransaction, Update", "util/util.go: RunInNewUpdateTxn"]}
{"id": "C96", "title": "InsertOne never hands out an id twice while everything overlaps", "statement": "Any number of processes work on one store, their schema changes, schema reloads, id leases, crashes and document transactions overlapping freely, and applications insert documents by database and collection name. The ids InsertOne gave to documents of committed transactions are all different within a collection, and different from those of transactions still open in living processes, which also differ among each other; an id returned after a failed commit may be given again, but never while it is in use. InsertOne finds no document under its id unless an application put one there with an id of its own choice. Committed transactions remain serial with the ids InsertOne answered.", "quantifier": "all histories of schema requests, worker steps, reloads, leases (also refused ones and ones lost in a crash), process crashes, and begin/call/check/commit/rollback of document transactions, all names, documents and lease sizes, from a fresh database", "why_tests_cant": "a collision needs a particular interleaving of leases, put-backs, crashes and commits of several processes; tests run one process and one allocator", "anchors": ["document/dml/collection.go: InsertOne", "document/dml/sequence.go", "document/meta/sequence/sequence.go: Next, PutBack", "document/meta/sequence/hash.go: NewHash", "document/txn/txn.go: Commit, AddCancelFunc"]}
{"id": "C97", "title": "Document transactions are refused only for documents they share", "statement": "Commit of a document transaction answers with a conflict only if, since the transaction began, another transaction committed a change to a document this one looked at: the two have calls about one collection, the one looking at documents, the other answered that it changed one, that name the same id or of which one goes through the whole collection. In particular transactions about different documents, or different collections, never disturb each other; transactions that only insert new documents (InsertOne) and delete by id are never refused for a conflict; and neither is any transaction while nobody else commits changes to documents, whatever schema changes, sequence leases or other commits happen meanwhile. The same holds, by database and collection names, while any number of processes change the schema, reload their caches, lease ids and crash: Commit of a transaction that shares no document with those committed since it began succeeds unless the schema moved on too far or the store fails to write.", "quantifier": "all histories of any number of overlapping document transactions (begin, CRUD calls, commit, rollback, also failing commits) and commits of others that write no documents, all schemas, ids and documents, from a fresh database; and all histories of C93", "why_tests_cant": "it is about every interleaving of any number of transactions and every pair of keys: a single read of a neighbouring key or of shared metadata in some branch would make unrelated transactions refuse each other only in some schedules", "anchors": ["document/txn/txn.go: Commit", "document/dml/collection.go: InsertOne, UpdateOne, UpsertOne, DeleteOne, GetOne, GetMany, GetAll, Count, DeleteAll", "provider/badger_txn.go: Commit, Get, Exists, Scan"]}
{"id": "C98", "title": "Transactions on strings, hashes and lists are refused only for structures they share", "statement": "Commit of a transaction that used the strings, hashes and lists of a prefix answers with a conflict only if a transaction that committed since it began had an operation that may change a string, hash or list (same kind, same name) this one looked at. So transactions about different structures never disturb each other, even if a hash, a list and a string have one name; transactions that only Set and Clear strings are never refused for a conflict; and commits outside the prefix disturb nobody.", "quantifier": "all histories of any number of overlapping transactions (begin, all 27 operations with all arguments, commit, rollback, failing commits) and commits of others outside the prefix, from a fresh database, all prefixes", "why_tests_cant": "every pair of structures, keys and interleavings: a single read of a neighbouring key in some branch (as HGetNDesc makes) refuses unrelated transactions only for some names and schedules", "anchors": ["structure/string.go", "structure/hash.go: updateHash, HDel, HClear, HGetNDesc, iterateHash, iterateReverseHash", "structure/list.go", "structure/keys.go", "provider/badger_txn.go: Commit, Get, Scan"]}
{"id": "C99", "title": "Of two transactions about one document the first to commit wins", "statement": "A document transaction that looked up a document (UpdateOne, UpsertOne, InsertOneManaged, GetOne, or GetMany up to the first document it does not find, before changing that document itself) and reports some change can never commit once another transaction that committed since it began changed that document: Commit does not answer success and the store stays as it was; the answer is a conflict whenever the schema has not moved on. Among transactions whose calls name their documents (no GetAll, Count, DeleteAll) this is exact: Commit answers a conflict if and only if there is such a document, and otherwise succeeds (when the schema allows it and the store can write).", "quantifier": "all histories of any number of overlapping document transactions with any calls, commits and rollbacks, failing commits, commits of others and the passing of time, from a fresh database", "why_tests_cant": "every pair of calls in every interleaving: one lookup that escapes the bookkeeping loses an update only in some schedules", "anchors": ["document/dml/collection.go: updateOne, UpdateOne, UpsertOne, InsertOneManaged, GetOne, DeleteOne", "document/txn/txn.go: Commit", "provider/badger_txn.go: Get, Exists, Commit"]}
