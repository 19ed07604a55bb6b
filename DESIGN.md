# Formal model of zhiqiangxu/mondis in Rocq (Coq 8.16.1)

## Approach

The Go code is transcribed, function by function, into total executable Gallina
functions (`rocq/theories/*.v`); every definition cites the file and lines it models.
Model files hold definitions, `*Proofs`-style lemmas follow, and `P_*.v` files hold
only the property theorems (closed by `exact`), their non-vacuity examples and
`Print Assumptions`.

Conventions:

- A byte is `Coq.Init.Byte.byte`; a Go `[]byte` is `list byte`; nil versus empty is an
  explicit `option` where the code can observe it. Byte strings are compared by
  `bytes_cmp` (lexicographic, unsigned).
- int64/uint64 are `Z` with explicit wrap functions where the code can overflow.
- Errors are values; a Go panic is an explicit outcome.
- A store is a strictly sorted association list (canonical: equal contents = equal
  lists), a transaction is snapshot + own writes.
- Transcribed loops are structural recursions or carry explicit fuel with the
  out-of-fuel case excluded in the statements.
- Where the code violates a property a user relies on, the theorem is named
  `..._refuted` and carries a witness, with the true part proved beside it.

## Trusted base

- **Coq's kernel (8.16.1).** No axioms are declared, no functors, module types or
  unchecked features are used. Every theorem in a `P_*.v` file is followed by
  `Print Assumptions`, and every one of them answers
  `Closed under the global context` (the build log shows it): no theorem of the
  manifest rests on any axiom, not even one of the standard library's.
  `vcheck` additionally lists, for the loaded environment, the constants
  `Coq.ssr.ssrunder.Under_rel.*` (Over_rel, Under_rel, Under_relE,
  Under_rel_from_rel, over_rel, over_rel_done, under_rel_done): they are parameters
  of a sealed module of Coq's own ssreflect plugin library, loaded through the
  standard library's arithmetic tactics; no theorem depends on them.
- **The reading of the Go code**: it is transcribed by hand and cannot be run here.
- **Contracts of external software**, which are modelled, not verified:
  - Badger: snapshot-isolated transactions with conflict detection on the keys read
    by update transactions (scanned items included, absent keys of a range not), sorted
    iteration, errors for empty keys, read-only and discarded transactions, entries with
    expiry and tag, `ErrTxnTooBig` after a count or size limit (`Provider.v`; the limits
    are parameters). A commit may also fail for an external reason (`io`).
  - goleveldb: sorted iteration, batches (`Provider.v`).
  - Go: `strconv`, `encoding/binary` are transcribed; maps iterate in an arbitrary
    order (quantified over); `sync.Mutex/RWMutex/Once/Pool`, `closer.Strict`, and the
    `CRWMutex` by their documented contracts.
  - `encoding/json` by the contract `json_ok` (what is encoded decodes to itself, for
    valid UTF-8 names), `bson` by `bson_ok`; both are record parameters quantified over,
    and each has an instance in the examples, so the contracts are satisfiable.
  - qrpc: reliable ordered frames per stream; sockets, timeouts and reconnection are not
    modelled.

## What is modelled

| Code in /repo | Model | Proof files |
|---|---|---|
| kv/memcomparable, kv/numeric, kv/compact | Memcmp, Numeric, Float, Compact | MemcmpProofs, P_Codec |
| kv key model (`Key`, `PrefixNext`, ...) | KeyModel | P_Codec |
| provider (badger, leveldb), kv.Txn | SMap, Provider, World | ProviderProofs, ProviderMore, P_Provider, Serial*, P_Serial |
| kv utilities, util (txn helpers) | KvUtil, UtilTxn | P_Util |
| structure (string, hash, list) | Struct, StructRef | StructProofs, StructHash, StructList, P_Struct, StructSerial*, P_StructSerial |
| pb | Pb* | P_Pb |
| server, client | Remote* | P_Remote |
| document/sequence, document/meta sequences | Sequence, TxPost | SequenceProofs, P_Sequence |
| document/keyspace, model, meta | DocKeys, Model, Meta, MetaSpec | MetaCodec, MetaProofs, MetaOps, MetaRun, MetaWrites, P_DocKeys, P_Meta, P_GlobalIds |
| document/model as pointers (aliasing) | ModelHeap | ModelHeapProofs, P_ModelHeap |
| document/ddl (api, worker) | Ddl, DdlSpec, DdlSerial | DdlProofs, DdlWorker, DdlSys, DdlIndex, DdlMore, P_Ddl, DdlSerialProofs, P_DdlSerial |
| document/schema, domain | Schema, Domain | DomainProofs, P_Schema, P_Domain |
| document/dml, document/txn | Dml, DocTxn | DmlProofs, Wrote, InsertWorld, P_Dml, P_Insert, DocSerial*, P_DocSerial |
| a whole process: domain + worker + cache + allocators, crashes, several processes | Process, ProcessSpec, DocLife, DocLifeSpec | ProcessProofs, ProcessIds, DocLifeProofs, P_Process, P_ProcessIds, P_DocLife |
| the older document package (db, collection, index, sequence, Close) | OldDoc, OldColl, OldInsert, OldIndex, OldSequence, OldClose | OldIndexProofs, OldIndexRun, OldIndexMem, OldCloseProofs, P_OldDoc, P_OldColl, P_OldIndex, P_OldClose |

Not modelled: document/bson/*, document/config/*, ddl/options.go, dml/index.go (its
Lookup is empty), server/cmd.go, server/server.go (Start/Stop), kv/memcomparable/doc.go
(no logic, or only wiring); logging; sleeping and time except the clock that expires
entries; transaction size limits inside the DDL worker and in C87/C88 (they are modelled in
C31, C42-C47 and the provider); aliasing of the caller's `Fields` slice in CreateIndex.
In C59-C61 and C78-C84 the transactions of the DDL requests and of the worker are single steps;
C89 removes that simplification for the DDL part.

## Plan per property

- **C01 Byte-string key codec round trip** — modelled: Memcmp.v: EncodeBytes/decodeBytes loops as recursion over 8-byte groups. Proved by: induction on the number of groups.
- **C02 Byte-string key codec preserves order** — modelled: same. Proved by: lexicographic comparison lemma by strong induction on length.
- **C03 Byte-string key codec is prefix free and composes** — modelled: same. Proved by: the comparison lemma is proved with arbitrary suffixes.
- **C04 Byte-string decoder is canonical and total** — modelled: same, decoder with explicit error values; Go slice accesses are guarded by length tests. Proved by: inversion of the decoder by induction on fuel = length.
- **C05 Integer key codecs: round trip, order, totality** — modelled: Memcmp.v: big-endian 8 byte encoding, sign-bit flip. Proved by: positional-notation order lemma.
- **C06 Float key codec: order and round trip on numbers** — modelled: Float.v: 64-bit patterns as Z; a double's value as an integer scaled by 2^1074. Proved by: case analysis on sign and exponent. P_Float.v ties that reading to IEEE 754: patterns decoded by Flocq's `binary_float_of_bits_aux 52 11` (used for its definition only) and compared by the standard library's `SFcompare`; still no axioms.
- **C07 Float key codec on NaN** — modelled: same. Proved by: refuted by witness; characterised exactly.
- **C08 Varint codec round trip** — modelled: Compact.v: binary.PutUvarint/Uvarint loops. Proved by: induction on the 7-bit groups.
- **C09 Compact decoders never crash** — modelled: same, slice panic explicit. Proved by: refuted by witness; the inputs that panic are characterised.
- **C10 Decimal and binary integer values round trip** — modelled: Numeric.v: FormatInt/ParseInt digit loops, big-endian. Proved by: induction on digits.
- **C11 PrefixNext bounds exactly the keys with a prefix** — modelled: KeyModel.v. Proved by: induction on the key.
- **C12 Key.Next is the immediate successor and IsPoint is exact** — modelled: KeyModel.v. Proved by: induction on the key.
- **C13 Counters: IncInt64/GetInt64/SetInt64** — modelled: KvUtil.v over the Txn model. Proved by: induction on operation list.
- **C14 Structure key spaces are disjoint** — modelled: Struct.v. Proved by: prefix freedom of C03.
- **C15 String structure refines a map** — modelled: Struct.v. Proved by: refinement.
- **C16 Hash structure refines a map of maps** — modelled: Struct.v (lemmas in StructHash.v). Proved by: refinement with invariant meta = #fields.
- **C17 Setting a hash field stores it, whatever the value** — modelled: Struct.v (lemmas in StructHash.v). Proved by: refuted by witness; positive part under non-empty value.
- **C18 HLen counts the fields** — modelled: Struct.v (lemmas in StructHash.v). Proved by: invariant.
- **C19 Descending hash reads** — modelled: Struct.v (lemmas in StructHash.v). Proved by: sortedness of scans.
- **C20 Hash counters** — modelled: Struct.v (lemmas in StructHash.v). Proved by: refinement.
- **C21 List structure refines a double-ended queue** — modelled: Struct.v (lemmas in StructList.v). Proved by: refinement to list with invariant on stored indices.
- **C22 List indexing** — modelled: Struct.v (lemmas in StructList.v). Proved by: refinement.
- **C23 Structures do not interfere** — modelled: all structure files. Proved by: frame theorems on the store.
- **C24 Transactions read their own writes over a snapshot** — modelled: Provider.v: Badger transaction as snapshot + pending writes; contract of Badger itself is assumed and recorded. Proved by: induction on operations.
- **C25 Forward scans are exact** — modelled: Provider.v: iterator Seek/Valid/Next loop. Proved by: sorted-list lemmas.
- **C26 Reverse scans are exact** — modelled: same. Proved by: refuted without offset; partial with offset.
- **C27 Scan offset below the prefix** — modelled: same. Proved by: refuted by witness for Badger, proved for LevelDB.
- **C28 Providers agree** — modelled: Provider.v. Proved by: simulation.
- **C29 Write batches apply in order** — modelled: Provider.v. Proved by: fold.
- **C30 Update transactions are atomic** — modelled: UtilTxn.v: transaction bodies as functions on the Txn model, commit failure as an oracle. Proved by: case analysis.
- **C31 Retry on too-big transactions loses and duplicates nothing** — modelled: UtilTxn.v. Proved by: induction on the attempts.
- **C32 Wire messages round trip** — modelled: Pb.v: Marshal/Unmarshal field loops of every message. Proved by: generic field-list codec lemma.
- **C33 Wire decoders never crash** — modelled: Pb.v with int64 wrap of indices and explicit slice panics. Proved by: refuted by witness; proved total below a size bound.
- **C34 Unknown fields are skipped** — modelled: Pb.v. Proved by: induction on fields.
- **C35 Remote single operations equal local ones** — modelled: Remote.v. Proved by: simulation through the wire codec of C32.
- **C36 Remote transactions accept any sequence of operations** — modelled: Remote.v: continued-frame handler with its reused request/response structs. Proved by: refuted by witness.
- **C37 Remote transaction scans are independent** — modelled: same. Proved by: refuted by witness.
- **C38 Remote transactions: reads, deletes, commit, discard** — modelled: same. Proved by: simulation by induction on requests.
- **C39 Scan limits are honoured** — modelled: Remote.v. Proved by: list lemmas.
- **C40 Read-only client transactions cannot mutate** — modelled: Remote.v. Proved by: case analysis.
- **C41 Error codes map to client errors** — modelled: Remote.v. Proved by: case analysis; refuted for Delete.
- **C42 Document ids are never handed out twice** — modelled: Sequence.v: Sequence object + stored counter, crash = lose the object. Proved by: invariant: stored >= every id handed out.
- **C43 NextN ranges do not overlap later ids** — modelled: Sequence.v. Proved by: refuted; partial without renewal.
- **C44 Two live allocators on one stored sequence** — modelled: Sequence.v. Proved by: refuted for Close; proved without release.
- **C45 Sequence release wastes nothing** — modelled: Sequence.v. Proved by: invariant.
- **C46 Clearing one collection's sequence affects only it** — modelled: Sequence.v over hash structure. Proved by: refuted by witness.
- **C47 Old allocator: uniqueness and release** — modelled: OldSequence.v. Proved by: invariant; release refuted.
- **C48 Document keys: disjoint, ordered, decodable** — modelled: DocKeys.v. Proved by: C03/C05.
- **C49 Collection CRUD refines a map per collection** — modelled: Dml.v over Txn model. Proved by: refinement.
- **C50 Insert never destroys a document** — modelled: Dml.v. Proved by: refuted by witnesses; partial.
- **C51 Document id range of a collection** — modelled: Dml.v. Proved by: refuted; partial.
- **C52 Failed insert returns its id** — modelled: Dml.v + DocTxn. Proved by: case analysis.
- **C53 Global ids are unique** — modelled: Meta.v. Proved by: invariant.
- **C54 Schema metadata refines nested maps** — modelled: Meta.v over hash structure. Proved by: refinement.
- **C55 DDL jobs are processed first-in first-out** — modelled: Meta.v over list structure. Proved by: refinement to a queue.
- **C56 DDL history lists jobs newest first** — modelled: Meta.v. Proved by: sorted scans.
- **C57 CreateSchema assigns fresh ids** — modelled: Ddl.v. Proved by: arithmetic.
- **C58 CreateSchema supports indices** — modelled: Ddl.v. Proved by: refuted.
- **C59 DDL jobs take effect exactly once** — modelled: Ddl.v worker as step function with crash between transactions. Proved by: invariant over steps.
- **C60 A failing DDL job does not block the queue** — modelled: Ddl.v. Proved by: refuted.
- **C61 AddIndex state machine** — modelled: Ddl.v. Proved by: proved per step; termination refuted.
- **C62 Schema check detects every relevant change** — modelled: Schema.v. Proved by: list lemmas.
- **C63 Schema check releases its lock** — modelled: Schema.v with explicit lock count. Proved by: refuted.
- **C64 Incremental schema load equals full load** — modelled: Schema.v. Proved by: refuted for states, proved otherwise.
- **C65 Schema reload follows the store** — modelled: Schema.v, Domain.v. Proved by: case analysis.
- **C66 Document transactions validate their schema** — modelled: DocTxn.v. Proved by: case analysis over an oracle for commit.
- **C67 Collection name to id mapping is stable (old package)** — modelled: OldDoc.v, OldColl.v. Proved by: invariant.
- **C68 Index keys ignore field order (old package)** — modelled: OldDoc.v, OldIndex.v. Proved by: sorting lemma; refuted for orphans.
- **C69 Deleting all documents works (old package)** — modelled: OldDoc.v, OldIndex.v. Proved by: refuted.
- **C70 Model objects are deep-copied** — modelled: ModelHeap.v with explicit heap. Proved by: invariant.
- **C71 DDL input validation** — modelled: Ddl.v. Proved by: case analysis.
- **C72 No lost updates between transactions** — modelled: World.v: histories over many transactions, conflict detection by read keys and commit timestamps. Proved by: invariant relating snapshots, last-commit timestamps and the committed state.
- **C73 Expiry and tags** — modelled: Provider.v entries with expiry. Proved by: case analysis on the clock; second half refuted by witness.
- **C74 Documents of the older package behave as finite maps** — OldColl.v models every document method on the provider model; P_OldColl.v proves that any program explains itself on finite maps (old_sem), by induction on the program from a per-operation lemma.
- **C75 InsertOne of the older package destroys no document** — OldInsert.v composes the sequence model (OldSequence.v) with the write of OldColl.v; invariant: ids in use are below the counter and disjoint from every lease. Proved when the application writes only under returned ids or ids below the initial counter (partial); refuted without (InsertOneManaged 1, then InsertOne).
- **C76 The index catalogue of the older package survives everything** — OldIndex.v models CreateIndex, DropIndex, getIndexes as transactions over the sequence model; OldIndexProofs.v, OldIndexRun.v: invariant relating the three keys of every index to a catalogue of rows; bson is a parameter with a round-trip contract. Refuted when the store refuses the second Set of CreateIndex, whose error is ignored.
- **C77 GetIndexes of the older package agrees with the store** — OldIndexMem.v: the map of one object equals the catalogue up to column order when map updates follow commits (partial); refuted for concurrent calls (ghost index) and for the definition (columns sorted, direction lost until restart).
- **C78 A visible collection has an allocator of document ids** — Process.v models the process (Init, worker loop, registry, notifications, crashes) on top of Ddl.v/Domain.v; invariant in ProcessProofs.v; concrete counterexamples with PTick and PElsewhere.
- **C79 A restarted process always starts, and the worker never sticks at an allocator** — From the invariant of ProcessProofs.v: the ids of listed collections are distinct and a new process's table is empty.
- **C80 Init can be tried again, and a process can open several stores (refuted)** — create_seqs_clash on any store; induction over the continuation with the table only growing.
- **C81 When CreateSchema has returned, the schema is usable in the process** — The cache is at most one applied job behind, and that job is not in the history (ui_two in ProcessProofs.v); with C59_poll_meaning.
- **C82 A collection's name and id belong together for ever, and nothing visible is forgotten** — Process.v (model), ProcessIds.v (invariant: the cache shows a prefix of the applied jobs, whose length never shrinks), P_ProcessIds.v.
- **C83 Document ids given out by any process never collide** — ProcessSpec.v (ids given out and in use, independent of the allocators), ProcessIds.v (invariant: every id in use is below the stored counter and in no live range), P_ProcessIds.v.
- **C84 Documents by name, end to end, across processes** — DocLife.v adds calls to the process model (Process.v); DocLifeSpec.v is the specification (maps by name, ids in use); DocLifeProofs.v proves the simulation from the invariants of C78-C83, the read and write sets of document transactions (a lease touches metadata keys only, MetaWrites.v, so it never conflicts with them) and C49's per-transaction refinement; P_DocLife.v states the theorems. InsertOne-never-overwrites and durability are then proved from the specification alone.
- **C85 Transactions that do not scan are serializable in commit order** — Serial.v defines, from calls and answers alone, the journal of a history and the serial history made of the committed transactions; SerialProofs.v proves by induction over the history that the serial replay has the same store, using conflict_free (reads unchanged at commit) and a simulation between a transaction and its replay; P_Serial.v states it, with the phantom counterexample over all permutations.
- **C86 Closing the old document DB waits for the operations inside and lets none in afterwards** — OldClose.v models goroutines step by step (checkState, db.mu, closer.Add/Done, once.Do, SignalAndWait, releases) with arbitrary bodies; OldCloseProofs.v proves a 13-clause invariant and a lexicographic measure; P_OldClose.v states the property over traces. Contract of closer.Strict, sync.Once, sync.RWMutex assumed. A write the caller keeps in its own transaction and commits after Close is the caller's, not modelled.
- **C87 Concurrent document transactions are atomic and isolated** — DocSerial.v: histories of dtxn values (DocTxn.v, Dml.v) over one Badger database; journal of calls and answers; specification docs_after/replays on maps. DocSerialProofs.v: every scan-free operation is [steady] (same answers on two snapshots that agree on the keys it read), which with conflict detection lets each commit be replayed on the current documents; C49's refinement gives the answers of the maps. Theorems in P_DocSerial.v, with the refutation for DeleteAll by an explicit history and all 24 orders.
- **C88 Strings, hashes and lists are strictly serializable under concurrency** — StructSerial.v (world of transactions over Struct.v/Provider.v, journal with begin and end event numbers, replays/real_time/one_moment), StructSerialProofs.v (every operation gives the same answers on two transactions that agree on the keys the first one read; for HClear the field count in both states and inclusion of the scanned fields give equality; transactions that wrote nothing are inserted where they began, the others at their commit), P_StructSerial.v. Not modelled: size limits.
- **C89 Overlapping schema changes take effect once and in order** — DdlSerial.v: iteration_at/kstep keep the snapshot each open transaction began on and run the same functions as Ddl.v from it, committing on the current database. DdlSerialProofs.v: a transaction that commits without conflict behaves on the current database as on its snapshot, provided the scanned database list did not change; a worker that applies a job changes the head of the queue, which every other open worker transaction has read, so those conflict; requests are compared with their core without the name check. The sequential invariant of DdlSys.v is then preserved by every step.
- **C90 Schema caches of concurrent processes are past schemas and never go back** — DomSerial.v adds to DdlSerial.v a handle per process, the snapshot of a running reload, open document transactions with their starting cache, and models NewDB/Collection/Index; DomSerialProofs.v keeps the list of past moments (database, jobs applied then) as ghost state and shows every cache belongs to one of them (reusing P_Domain.reload_inv at the moment of the snapshot); P_DomSerial.v states the property with up_to_date (P_Domain.v) between the cache now and the store at a prefix of the history.
- **C91 Schema checks refuse a document transaction only after more than 100 schema changes, and never leave the lock held** — Same files: every open transaction keeps the relation `follows` between its starting cache and the process's current one (kept by incremental reloads, by trimming and by full reloads), ids of collections created by later versions differ from all ids the transaction can refer to, so check_loop never meets them. The branch that leaks the lock (C63) needs a change of an existing collection, which no accepted change makes in these histories.
- **C92 Concurrent remote clients over failing connections are served serializably** — RemoteSerial.v puts the client objects and server streams of Remote.v in one history over one store, each request with a fate, and defines the log the clients can write down; RemoteSerialProofs.v keeps a relation between that history and a history of World.v (one local transaction per stream), request by request; P_RemoteSerial.v then applies C85.
- **C93 Documents by name stay serializable while everything overlaps** — AllSerial.v puts the schema transactions of DdlSerial.v, the caches of DomSerial.v and the document calls of DocSerial.v into one system over one store, with a per-process handle, and defines what users note down by names (entry, glog) and the maps by names (ncalls_spec). AllSerialProofs.v keeps three invariants at once: the caches are past schemas (finv of DomSerialProofs.v, via the projection fof), the documents form a history of DocSerial.v in which schema transactions are transactions that write no document (kstep_moved), and the log by names matches the journal by ids (same_log); injectivity of names to collection ids (ProcessIds.lookup_inj) turns the replay on ids into one on names. Commit is two steps (check, then store commit) so that reloads may come in between. NewTxn is two steps as well (the cache first, the snapshot later, anything in between). Simplification: InsertOne's id is an argument (its allocator is C83, C94).
- **C94 Ids leased by allocators of overlapping processes never collide** — Model DdlSerial.v (every transaction begins on one database and commits on another). P_Leases.v: the leases of a history are read off the answers of the lease transactions; invariant: the stored counter of each collection is at least the end of every lease granted; a lease transaction always writes its counter (writes_inc), so it takes part in conflict detection and acts on the current value (covers_now); all other transactions leave the counters alone (did_fun: what is stored determines the counters).
- **C95 A commit is refused with a conflict exactly when something it read was changed meanwhile** — Model World.v over Provider.v (the engine's conflict detection is the contract listed in the trusted base). P_Conflict.v: the specification reads only the answered calls of the transactions (looked_at, wrote_key, meanwhile); the proof relates the set of recorded reads to the calls in both directions and the last-writer timestamps to the journal of committed transactions (invariants jinv, since).
- **C96 InsertOne never hands out an id twice while everything overlaps** — Model InsertSerial.v over AllSerial.v: the allocators of every process (next, leased, putbacks), their lease transactions as transactions of the shared store, the cancel functions of document transactions; InsertOne takes its id from the allocator (in C93 the id was an argument). InsertSerialProofs.v: every id is in at most one place (an allocator's lease or putbacks, or a transaction that still holds it) and in a lease C94 proves disjoint from all others. Not modelled: allocators that return their lease when closed (C44), InsertOne when there is no allocator or no lease (it writes nothing: C50, C78).
- **C97 Document transactions are refused only for documents they share** — P_DocConflict.v over DocSerial.v, lifted to names in the system of C93 by its simulation (P_AllConflict.v). Invariants of every open transaction: each key read belongs to a document named by one of its looking calls, each pending key to a document a call reported as changed, and each document key of the store with a newer timestamp was changed by a transaction committed since it began; document keys of different (collection, id) differ (C48). Not modelled: badger compares 64-bit fingerprints of keys, so a hash collision may also give a conflict; ranges of ids (ORange) are excluded as in C87.
- **C98 Transactions on strings, hashes and lists are refused only for structures they share** — P_StructConflict.v over StructSerial.v: a footprint (keys read, keys written) for every operation inside the key region of its structure; regions of different structures are disjoint; invariants as for C97. It fails for HGetNDesc when the hash has fewer fields than asked for: the reverse scan has no prefix, meets the first key before the hash's fields and tracks it as read (hash.go:221-245); C98_descending_listing_conflicts_with_others_refuted. Badger's fingerprint collisions are not modelled.
- **C99 Of two transactions about one document the first to commit wins** — P_FirstWins.v over DocSerial.v: invariants beside those of C97: a document looked up and not changed before is among the keys read, a reported change is among the writes, a committed change stamps its key later than the snapshot of everyone under way. The converse (for the iff) follows the reads back to a lookup before any own change. The scans are outside the iff (C97 covers them in one direction). Badger's fingerprint collisions are not modelled. By names and while everything overlaps: P_AllFirstWins.v in the system of C93 (named_first_committer_wins, named_conflict_iff).
