# Formal model of Grin++ in Rocq: design

The C++ sources in `/repo` were read as text. Nothing was compiled or run, so the only
tie between the model and the code is the reading recorded in the comments: every model
definition cites the file and lines it models and says where it simplifies.

## Layout

For each area `X` there are up to four files in `rocq/theories/`:

* `XModel.v`  – executable Gallina model of the C++ functions, no proofs;
* `XSpec.v`   – small independent specification (trees, lists, sets, integers), no reference to the model;
* `XProofs.v` – lemmas;
* `XProps.v`  – only the property theorems (`exact lemma`), examples showing the hypotheses are met,
  and `Print Assumptions`.

`Base.v` has the shared machine-integer definitions (`u64` etc. are `N` with explicit `mod 2^w`)
and tactics.

Undefined behaviour, failed `assert`, and thrown exceptions are distinct outcomes wherever a property
depends on them. Cryptographic primitives (Blake2b, SHA-256, siphash, secp256k1) are section
variables: theorems hold for every function of the right type unless an assumption is written in the statement.

## Plan per property

| id | model | method |
|---|---|---|
| C01 C02 C03 | `MMRIndexModel`: Index, LeafIndex, GetPeakIndices on 64-bit N | spec = post-order layout of perfect binary trees; induction on tree height |
| C04 C05 C06 | `MMRHashModel`: AddHashes / Root / rewind over a list of hashes, hash function abstract | spec = recursive tree hash; induction on leaf list; collision extraction |
| C07 | `PruneModel`: shift caches and hash file lookup | spec = list with the pruned positions filtered out |
| C08 | `FileModel`: AppendOnlyFile + DataFile state machine | refinement to (committed list, current list) by induction on op list |
| C09 | `BitmapModel`: byte map over mmap, modified bytes | refinement to a set predicate |
| C10 C11 | `SerialModel`: ByteBuffer / Serializer with explicit 64-bit cursor and UB outcome | case analysis; `_refuted` witnesses for wrapping lengths |
| C12 C13 | `CodecModel` | bit-list refinement; round-trip; refutation of byte stability |
| C14 C15 | `CodecModel` | round trip theorems |
| C16 | `ChainModel`: Chain, ChainStore | refinement to two lists; invariant over op list |
| C17 C18 | `HeaderModel` (processing, batches of Lockable.h), `LockProofs` | invariants over op lists; batch = all or nothing |
| C19 C20 C47 | `UtxoModel` (TxHashSet: ApplyBlock, Rewind, ValidateRoots, IsValid; block database tables as association lists; prune lists empty; data files as lists of records) | simulation against a ledger of coins for every history of applied and rewound blocks; refutations by computation |
| C21 | `ValidationModel` (kernel sums, rewards; the curve is a record of operations with the group laws as hypotheses), `CoinProofs` | algebra, induction on the chain; refutations |
| C22 | `CrashModel`: a commit as a list of writes to files and databases, stopped after any of them, then a restart | results per store, invariant over histories, refutations of atomicity |
| C23 C24 | `U128Model` | arithmetic refinement to N mod 2^128 |
| C25 | `CuckooModel`: five verifiers over an abstract edge function | loop invariant, graph spec |
| C26 C27 C28 C30 | `ConsensusModel`, `DifficultyModel` | arithmetic |
| C29 | `ValidationModel` (cut-through, aggregation) | multiset algebra |
| C31 C32 C33 | `PoolModel` | invariants / refutations |
| C34 C35 | `CacheModel` | refinement / refutation |
| C36–C39 C50 | `WalletModel`: coins, selection, send, receive, finalize, cancel, refresh, balances, estimates | invariants over every list of wallet operations; refutations |
| C40 | `ExchangeModel`: signing, the three builders, stored secret contexts, over a record of curve operations | scalar algebra; refutations; `ToyCurve` is an instance |
| C42 | `KeyPathModel` | invariant over every history of accounts and paths |
| C41 | `TextModel`, `MnemonicModel`, `WordListData` | round trips, refutations |
| C43 C45 | `DifficultyModel`: PoW size selection, header validation | case analysis; refutation with a real solved cycle |
| C44 | `HeaderModel` | refutation: a self-linked orphan |
| C18 (blocks) C48 C49 | `BlockModel`: BlockProcessor, ProcessNextOrphanBlock, GetBlocksNeeded, Create/restart; transaction pool and validators as parameters | one invariant over every list of events, on top of the header and output set results; refutations by computation on a toy network |
| C46 | `ValidationModel`: sorting, duplicate and cut-through checks | order lemmas; refutations by feature byte |
| C51 | `SlateCodecModel`: binary and JSON forms of a slate, comparison, stored slates | round trips with the reader calculus of `SerialSpec`; bounds on what a reader yields; refutations |
| C52 | `Bech32Model`: checksum, case, regrouping, addresses; `SlatepackModel`: messages and armor around them | checksum linear over GF(2), scaling by GF(32) and a computed table for four errors; `value`-based specification of regrouping; round trips with `decodes`; refutations |
| C53 | `MessageModel`: frames, bodies of all messages, the receiving loop, handshakes | reader calculus of `SerialSpec`; induction on the stream; size bounds; refutations |
| C54 | `LocatorModel`: locators, answering a request for headers | induction on rounds; refutations |
| C55 | completeness of block processing over `BlockModel`; `AcceptSpec` states what a valid block is over the ledger alone | the invariant of C48, exactness of applying (C20) and of the roots (C47), induction over the branch |
| C56 | `CompactModel`: short ids, making and rebuilding compact blocks, AddCompactBlock and the reply, on top of the node of C48 and the pool of C31; `CompactSpec`: a block made of transactions | sorting lists with equal elements agrees, distinct short ids make hits and ids correspond; refutations by evaluation on a small network |
| C57 | `StateModel`: sending and receiving the archive of the output set with the conversions of the sizes, ProcessTxHashSet on top of the node of C48 with unzipping and validation as parameters; `StateSpec`: what was sent, the last common block of two chains | induction over the chunks and over the requests; symbolic execution of the batch; refutations by evaluation on a small network or for all inputs |
| C58 | `SyncModel`: a turn of the synchronization thread with its three parts and the choice of peers, the rest of the node being what the turn sees; `SyncSpec`: the best peer, caught up, outstanding | the loop that collects blocks as an inductive relation with invariants; induction over the turns; refutations by evaluation or for all runs |
| C59 | `AccountModel`: accounts, sessions, listeners and open databases, and the operations of the owner API on them, over abstract primitives; `AccountSpec`: what a history says about accounts and tokens, and the laws of the primitives | one invariant of the state and the history, by induction over the operations; refutations for all histories or with a toy instance of the primitives |
| C60 | `RestoreModel`: the answer of the node in batches and the search of the wallet, over the node at each time and an abstract keychain; `RestoreSpec`: unspent outputs, a chain that grows, outputs of the wallet | what a batch contains, by induction over the leaves; the loop with an invariant about all outputs below the next index at all later times; induction over the refreshes |
| C61 | `PeerModel`: the peers a node knows, the search among them, and the connections as a machine of events with times (arrivals, handshakes, messages, bans, clean-ups, restarts), with the two threads that can block for ever; `PeerSpec`: ready peers, histories within a ban | the search by induction over its rounds and positions modulo the number of peers; invariants over histories (distinct addresses, a kept ban, a closed connection, a connection that survives its ban); witnesses for what is false |
| C62 | `SocketModel`: the queue of messages, the calls of several threads in three steps each, and the handler of finished writes in two; bytes read from released memory are unknown bytes | invariant between calls that do not overlap (what is written and what waits); an invariant of a stalled connection over all continuations; witnesses |
| C63 | `PipeModel`: the queue shared by threads, the pipe of blocks with its batches of up to eight tasks in any order, the pipe of transactions; the block chain is a parameter that any thread may change | invariant over all schedules (taken = removed ++ queue, called is a permutation of removed and the finished tasks); a ghost number per entry for the order; draining by induction; witnesses |
| C64 | `TorModel`: base32 with the bit expressions of cppcodec, parser and writer of addresses; SHA3 and the test of keys are parameters | bit expressions turned into arithmetic (every byte checked by the kernel), blocks by induction, unique digits of a number; witnesses for every key |
| C65 | `StoreModel`: byte formats of outputs, contexts and transactions of the wallet, their encryption, the three tables as key/row lists; AES, Blake2b and the text of a uuid are parameters | readers that depend on what follows (`decP`), tables by induction over the history of saves; witnesses, some for every object of a shape |
| C66 | `QueryModel`: std::stoull with bases, the lookup of blocks and headers, GetOutputsByHeight with its reserve modulo 2^64, JSON-RPC requests as JSON values and methods as parameters | the readings of a text by its length and first characters, lists of heights by induction; `_refuted` theorems, most for every text or range of a shape, the rest witnesses |
| C67 | `TxJsonModel`: ToJSON and FromJSON of transactions and their parts on JSON values, the handler of push_transaction with its effects; hashes, compact signatures, validation and pool are parameters | round trip by fields and lists; the handler by cases; `_refuted` theorems for every transaction of a kind |
| C68 | `AgeModel`: Base64 of cppcodec, the header and its parser, the stream of chunks with its counter, Encrypt and Decrypt; X25519, HKDF, HMAC and ChaCha20-Poly1305 are fields of a record with stated laws (`AgeSpec.lawful`, satisfied by toy ciphers), randomness is an argument | Base64 by groups of three; stream and pieces equivalent by induction in both directions; header parsed line by line; the theorem on slatepack messages instantiates C52; `_refuted` theorems for all ciphers |

Each property whose full statement is false of the code gets a theorem named `…_refuted`
with a concrete witness and, where useful, the strongest true statement beside it.

## Trusted base

* Coq 8.16.1 kernel, including the VM for `vm_compute`.
* `Print Assumptions` follows the theorems in every `*Props.v` file (one command for the tuple of all
  theorems of the file where there are many). The collected result is in the last section.
* The reading of the C++ code into the model: the comments in the `*Model.v` files. Nothing checks that
  reading by machine.
* Cryptography is a parameter of the theorems: Blake2b, SHA-256, the siphash keys of a header, secp256k1,
  Bulletproofs, ED25519, X25519, HKDF and ChaCha20-Poly1305 (Age itself is modelled, C68; C52 takes it as a parameter). A theorem that needs a law of one of them (no collision, a group law)
  has the law as a hypothesis in its statement. `Sha256Spec` and `ToyCurve` are used for examples only.

## What is modelled

| area | files of /repo | model |
|---|---|---|
| MMR positions, hashes, prune lists, leaf sets | `PMMR/Common/*`, `PMMR/HeaderMMRImpl.cpp`, `PMMR/KernelMMR.cpp`, `Core/File/*` | `MMRIndexModel`, `MMRHashModel`, `PruneModel`, `BitmapModel`, `FileModel` |
| output set | `PMMR/TxHashSetImpl.cpp`, `PMMR/Common/PruneableMMR.h`, the output tables of `Database/BlockDBImpl.cpp` | `UtxoModel` |
| readers, writers, consensus formats | `Core/Serialization/*`, `Core/Models/*` | `SerialModel`, `CodecModel` |
| proof of work, difficulty, header rules | `PoW/*`, `Consensus.h`, `BlockHeaderValidator.cpp` | `CuckooModel`, `U128Model`, `ConsensusModel`, `DifficultyModel` |
| validation | `Core/Validation/*`, `BlockValidator.cpp`, parts of `TxHashSetValidator.cpp` | `ValidationModel` |
| chains, headers, blocks, orphans, batches | `BlockChain/*`, `Core/Traits/Lockable.h` | `ChainModel`, `HeaderModel`, `BlockModel`, `CrashModel` |
| pools and Dandelion | `TxPool/*`, `P2P/Dandelion.cpp` | `PoolModel` |
| caches | `deps/caches`, `Crypto/BulletProofsCache.h` | `CacheModel` |
| wallet | `Wallet/WalletImpl.cpp`, `Wallet/SlateBuilder/*`, `Wallet/Models/*`, key paths, slate tables | `WalletModel`, `ExchangeModel`, `KeyPathModel`, `SlateCodecModel` |
| text formats | hex, Base58, armor, mnemonic, bech32, slatepack | `TextModel`, `MnemonicModel`, `Bech32Model`, `SlatepackModel` |
| messages between peers | `P2P/Messages/*`, `Connection.cpp`, `MessageProcessor.cpp` (decoding), `HandShake.cpp`, `BlockLocator.cpp` | `MessageModel`, `LocatorModel` |
| compact blocks | `ShortId.cpp`, `CompactBlockFactory.cpp`, `BlockHydrator.cpp`, AddCompactBlock | `CompactModel` |
| state archive | `P2P/Pipeline/TxHashSetPipe.cpp`, `Processors/TxHashSetProcessor.cpp` | `StateModel` |
| synchronization | `P2P/Sync/*`, parts of `ConnectionManager.cpp` | `SyncModel` |
| accounts and sessions | `Wallet/{WalletManagerImpl (accounts), SessionManager, ForeignController}.cpp`, `Wallet/Keychain/SeedEncrypter.cpp`, `Wallet/WalletDB/Sqlite/SqliteStore.cpp`, owner handlers | `AccountModel` |
| search for outputs | `Wallet/OutputRestorer.cpp`, `TxHashSet::GetOutputsByLeafIndex` | `RestoreModel` |
| peers and connections | `P2P/Seed/PeerManager.cpp`, `P2P/Seed/Seeder.cpp`, `P2P/Connection.cpp`, `P2P/Peer.h`, `PeerDBImpl::OpenDB`, `Config::IsPeer*` | `PeerModel` |
| sending of messages | `Net/Socket.cpp` (SendAsync, HandleSent) | `SocketModel` |
| pipes for received blocks and transactions | `P2P/Pipeline/BlockPipe.cpp`, `TransactionPipe.cpp`, `Common/ConcurrentQueue.h` | `PipeModel` |
| onion addresses | `Net/Tor/TorAddressParser.cpp`, `deps/cppcodec` (base32) | `TorModel` |
| wallet storage | `Wallet/WalletDB/Models/*.h`, `Wallet/WalletTx.h`, `Wallet/WalletDB/WalletEncryptionUtil.cpp`, `Wallet/WalletDB/Sqlite/Tables/{OutputsTable,TransactionsTable,SlateContextTable}.cpp` (SQLite itself and AES are not modelled) | `StoreModel` |
| queries | `Server/Node/API/{BlockAPI,HeaderAPI,ChainAPI}.cpp`, `BlockChainImpl.cpp: GetOutputsByHeight, GetBlockByCommitment, GetBlockHeaderByCommitment`, `Net/Servers/RPC/RPCServer.h`, `Net/Clients/RPC/RPC.h` (civetweb and the JSON text of answers are not modelled) | `QueryModel` |
| posting of transactions | `Core/Models/Transaction*.cpp` (ToJSON, FromJSON), `Core/Models/Features.h`, `Core/Util/JsonUtil.h`, `API/Node/Handlers/PushTransactionHandler.h`, `RPCNodeClient.h: PostTransaction` (jsoncpp as values, numbers integers) | `TxJsonModel` |
| encrypted messages | `Crypto/Age.cpp`, `Crypto/Age/{Header,RecipientLine}.h`, `Crypto/ChaChaPoly.h`, `Serialization/Base64.h` with cppcodec (ciphers and randomness as parameters; a counter past 2^88 - 1 not modelled) | `AgeModel` |

The lines are given at each definition. Simplifications are stated there too; the main ones are: databases are
association lists with atomic batches; threads are interleavings of operations that hold their lock; memory and disk
never run out; operating system errors, clocks and random numbers are arguments.

## What is not modelled

Sockets and threads of the peer-to-peer layer beyond the steps listed above, the stem relay's timer,
compaction, zip files, RocksDB and SQLite themselves (their contents are tables), the HTTP server and the methods
of the REST and RPC servers beyond those listed above, Tor beyond its addresses, configuration, logging, the command line,
the secp256k1, sodium and roaring libraries.

## What Print Assumptions says

Each `*Props.v` ends with `Print Assumptions` of a tuple of all its theorems. All of them answer
`Closed under the global context`: no theorem uses an axiom, of the standard library or of any other.
`coqchk` on all modules lists, besides this, only items of `ssreflect` (`Under_rel`, declared in a module type of the
library and loaded with it); no theorem depends on them.
