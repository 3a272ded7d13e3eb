{"id": "C01", "title": "MMR leaf numbering is a bijection onto leaf positions", "statement": "The position reported for the n-th leaf of an MMR is exactly the position the n-th leaf occupies when perfect binary trees are laid out in post-order; the height query reports 0 for exactly those positions; and asking for the leaf number of that position gives n back. Leaf positions strictly increase with n.", "quantifier": "every leaf number n and every position that fits in 64 bits", "why_tests_cant": "a test samples some small n; the bit-trick (2n - popcount(n)) and the peak-peeling loop must agree with the tree shape for all 2^63 leaf numbers", "anchors": ["include/PMMR/Common/LeafIndex.h:LeafIndex::At", "include/PMMR/Common/LeafIndex.h:LeafIndex::AtPos", "src/PMMR/Common/Index.cpp:Index::CalculateHeight", "src/PMMR/Common/Index.cpp:Index::CalculateLeafIndex", "include/Common/Util/BitUtil.h"]}
{"id": "C02", "title": "MMR navigation matches the tree", "statement": "For every position, the height, parent, sibling, left child and right child reported by the index API are those of the node at that position in the infinite post-order binary forest: parent of left/right child is the node itself, siblings are mutual, children have height one less.", "quantifier": "every 64-bit position that has its parent below 2^64", "why_tests_cant": "position arithmetic on unbounded tree sizes; a finite table cannot cover all heights", "anchors": ["src/PMMR/Common/Index.cpp:Index::GetParent", "src/PMMR/Common/Index.cpp:Index::GetSibling", "src/PMMR/Common/Index.cpp:Index::GetLeftChild", "src/PMMR/Common/Index.cpp:Index::GetRightChild", "src/PMMR/Common/Index.cpp:Index::CalculateHeight"]}
{"id": "C03", "title": "Peak enumeration is exact", "statement": "For a size that is a whole MMR, the peaks returned are precisely the roots of its maximal perfect trees, from left to right; for any other size the result is empty.", "quantifier": "every 64-bit size", "why_tests_cant": "the greedy peeling loop must be right for all sizes, including invalid ones", "anchors": ["src/PMMR/Common/MMRUtil.cpp:MMRUtil::GetPeakIndices"]}
{"id": "C04", "title": "Appending leaves yields the MMR of exactly those leaves", "statement": "After appending any sequence of leaves to an empty MMR, the hash stored at each position is that of the specified tree over that sequence (leaf hash binds position and data, parent hash binds position and both children) and the root is the bagging of its peaks right to left. The result depends only on the sequence.", "quantifier": "every finite sequence of leaves and every hash function", "why_tests_cant": "unbounded number and contents of leaves", "anchors": ["src/PMMR/Common/MMRHashUtil.cpp:AddHashes", "src/PMMR/Common/MMRHashUtil.cpp:Root", "src/PMMR/HeaderMMRImpl.cpp", "src/PMMR/KernelMMR.cpp"]}
{"id": "C05", "title": "Rewinding an MMR is the same as never having appended", "statement": "After appending xs then ys and rewinding to the size reached after xs, every stored hash, the root and all further appends behave exactly as if ys had never been appended.", "quantifier": "all sequences xs, ys and all later sequences zs", "why_tests_cant": "must hold for all histories of append/rewind", "anchors": ["src/PMMR/HeaderMMRImpl.cpp:Rewind", "src/PMMR/KernelMMR.cpp:Rewind", "src/PMMR/Common/MMRHashUtil.cpp"]}
{"id": "C06", "title": "The MMR root commits to the leaves", "statement": "If two leaf sequences of equal length have the same root, then either they are equal or two different inputs to the hash function with equal output can be exhibited.", "quantifier": "every pair of leaf sequences, every hash function", "why_tests_cant": "a collision argument over all inputs; tests cannot search for collisions", "anchors": ["src/PMMR/Common/MMRHashUtil.cpp:Root", "src/PMMR/Common/MMRHashUtil.cpp:HashLeafWithIndex", "src/PMMR/Common/MMRHashUtil.cpp:HashParentWithIndex"]}
{"id": "C07", "title": "Reads through a prune list return what was originally stored", "statement": "If the subtrees under a set of pruned roots are dropped from the hash file and the leaf data file, then reading any surviving position through the prune list returns the hash (or leaf data) that position had before pruning; positions inside a pruned subtree are reported compacted.", "quantifier": "every MMR size, every set of disjoint pruned roots, every surviving position", "why_tests_cant": "the shift arithmetic has to be exact for every combination of roots", "anchors": ["src/PMMR/Common/PruneList.cpp:GetShift", "src/PMMR/Common/PruneList.cpp:GetLeafShift", "src/PMMR/Common/PruneList.cpp:BuildPrunedCache", "src/PMMR/Common/MMRHashUtil.cpp:GetHashAt"]}
{"id": "C08", "title": "Append-only file behaves like a byte list with commit and discard", "statement": "Over any sequence of append, rewind, commit, rollback and in-bounds reads, a data file of fixed-size records returns exactly the bytes an in-memory list would, rollback returns to the last commit, and commit makes the visible contents the on-disk contents.", "quantifier": "every operation sequence and every record size", "why_tests_cant": "all interleavings of rewinds into flushed and unflushed regions", "anchors": ["src/Core/File/AppendOnlyFile.cpp", "include/Core/File/DataFile.h"]}
{"id": "C09", "title": "Bitmap file behaves like a set of integers with commit and rollback", "statement": "Over any sequence of set, unset, rewind, commit and rollback the membership query agrees with a mathematical set; commit persists exactly that set; rollback restores the last committed set; conversion to a Roaring bitmap yields exactly the members.", "quantifier": "every operation sequence and every 64-bit index", "why_tests_cant": "all histories; bit order and byte-boundary cases", "anchors": ["include/Core/File/BitmapFile.h"]}
{"id": "C10", "title": "Deserialization never reads outside the received bytes", "statement": "Every primitive read either returns the next bytes of the buffer and advances by exactly that many, or fails, and never touches bytes beyond the end, for any buffer and any attacker-chosen length field.", "quantifier": "every byte buffer, every cursor, every requested length up to 2^64-1", "why_tests_cant": "adversarial 64-bit lengths including those that wrap the cursor arithmetic", "anchors": ["include/Core/Serialization/ByteBuffer.h"]}
{"id": "C11", "title": "Integer and string encodings round-trip and are prefix-free", "statement": "Decoding an encoded sequence of primitive fields gives the fields back and leaves any trailing bytes unread, for every value and every trailing data.", "quantifier": "all values of each width, all strings, all trailing bytes", "why_tests_cant": "2^64 values and unbounded strings", "anchors": ["include/Core/Serialization/Serializer.h", "include/Core/Serialization/ByteBuffer.h", "include/Core/Serialization/EndianHelper.h"]}
{"id": "C12", "title": "Proof-of-work nonces survive the bit-packed encoding", "statement": "For every edge-bit size from 1 to 63 and every 42 nonces that fit, decoding the packed encoding gives back the same edge-bit size and nonces; decoding rejects edge-bit sizes 0 and above 63.", "quantifier": "all edge-bit sizes and all nonce vectors", "why_tests_cant": "bit packing across byte boundaries for all widths", "anchors": ["src/Core/Models/ProofOfWork.cpp"]}
{"id": "C13", "title": "Block headers round-trip byte for byte", "statement": "Deserializing a serialized header gives the same fields; and a header that deserializes re-serializes to the bytes it came from, so its identity (hash) is stable when relayed.", "quantifier": "every header and every byte string that parses as a header", "why_tests_cant": "unbounded field values; malleable padding bits", "anchors": ["src/Core/Models/BlockHeader.cpp", "src/Core/Models/ProofOfWork.cpp"]}
{"id": "C14", "title": "Transaction kernels, inputs, outputs and bodies round-trip", "statement": "Deserializing the serialization of a kernel, input, output or body at a given protocol version gives an equal object for every well-formed value, and malformed feature bytes or lock heights are rejected.", "quantifier": "every well-formed object, every supported protocol version, any number of items", "why_tests_cant": "variable-length bodies and all field values", "anchors": ["src/Core/Models/TransactionKernel.cpp", "src/Core/Models/TransactionBody.cpp", "src/Core/Models/TransactionInput.cpp", "src/Core/Models/TransactionOutput.cpp", "src/Core/Models/Transaction.cpp"]}
{"id": "C15", "title": "Fee fields round-trip in binary and JSON", "statement": "A fee and fee shift written in the wire or JSON format read back as the same fee and shift.", "quantifier": "every fee below 2^40 and shift below 16", "why_tests_cant": "2^44 combinations", "anchors": ["include/Core/Models/Fee.h"]}
{"id": "C16", "title": "Header and confirmed chains agree up to the fork point", "statement": "After any sequence of adds, rewinds, reorgs, commits and rollbacks on the chain store, each chain is a gap-free list indexed by height, lookups return the block at that height or nothing, and the candidate and confirmed chains hold the same blocks at every height up to the reported common index.", "quantifier": "every operation sequence", "why_tests_cant": "all histories of extension and reorg", "anchors": ["src/BlockChain/Chain.cpp", "src/BlockChain/ChainStore.cpp"]}
{"id": "C17", "title": "The best header always has the most work ever accepted", "statement": "Each accepted header is one higher than its predecessor with the previous hash linked and strictly more total difficulty; the candidate tip's total difficulty never decreases; a header branch becomes the candidate chain exactly when its total difficulty exceeds the current tip's.", "quantifier": "every sequence of single headers and header batches, including forks", "why_tests_cant": "all fork histories", "anchors": ["src/BlockChain/Processors/BlockHeaderProcessor.cpp", "src/BlockChain/Validators/BlockHeaderValidator.cpp"]}
{"id": "C18", "title": "A rejected block or header leaves the node state unchanged", "statement": "If processing ends in an error or without explicit commit, every lockable store (chains, database, header MMR, output set) is observably as before.", "quantifier": "every operation sequence inside the batch and every failure point", "why_tests_cant": "failure may happen at any point of any history", "anchors": ["include/Core/Traits/Lockable.h", "src/BlockChain/ChainState.cpp", "src/BlockChain/Processors/BlockProcessor.cpp"]}
{"id": "C19", "title": "Rewinding a block restores the previous output set", "statement": "Applying any valid block to the output set and then rewinding it gives back the same set of unspent outputs, the same positions, MMR sizes and roots.", "quantifier": "every state and every block, and every sequence of blocks rewound", "why_tests_cant": "all chain histories", "anchors": ["src/PMMR/TxHashSetImpl.cpp:ApplyBlock", "src/PMMR/TxHashSetImpl.cpp:Rewind"]}
{"id": "C20", "title": "Only existing unspent and mature outputs can be spent", "statement": "A block is applied only if each input names an output currently unspent in the set; a coinbase output is not spendable before the maturity height; after application spent outputs are absent and created outputs are present.", "quantifier": "every state reachable from genesis, every block", "why_tests_cant": "all histories of creation, spending and reorg", "anchors": ["src/PMMR/TxHashSetImpl.cpp:ApplyBlock", "include/Consensus.h", "src/BlockChain/CoinView.cpp"]}
{"id": "C21", "title": "No coins are created: total unspent value equals block rewards", "statement": "If every block accepted passes kernel-sum validation then the sum of the values committed by unspent outputs equals the number of blocks times the block reward, whatever blinding factors were used, or the discrete-log relation of the generators is exhibited.", "quantifier": "every chain of accepted blocks", "why_tests_cant": "a statement over all chains and blinding factors", "anchors": ["include/Core/Validation/KernelSumValidator.h", "src/BlockChain/Validators/BlockValidator.cpp", "src/PMMR/TxHashSetValidator.cpp"]}
{"id": "C22", "title": "Chain state commit is atomic with respect to crashes", "statement": "If the process stops at any point while the chain state is being committed, what is found on disk at restart is either entirely the old or entirely the new state.", "quantifier": "every crash point during commit", "why_tests_cant": "crash points between writes to independent stores", "anchors": ["src/BlockChain/ChainState.cpp:Commit", "src/PMMR/TxHashSetImpl.cpp:Commit", "src/Core/File/AppendOnlyFile.cpp:Flush", "src/Core/File/MappedFile_Nix.cpp:Write"]}
{"id": "C23", "title": "128-bit integers compute exactly modulo 2^128", "statement": "Addition, subtraction, multiplication, shifts, comparison, bit length and division with remainder on 128-bit values agree with mathematical integers modulo 2^128; division by zero is refused.", "quantifier": "all pairs of 128-bit values and all shift amounts", "why_tests_cant": "2^256 operand pairs", "anchors": ["src/PoW/uint128.cpp", "src/PoW/uint128.h"]}
{"id": "C24", "title": "Proof-of-work difficulty is scaling * 2^64 / hash", "statement": "The difficulty computed for a proof is floor(scaling * 2^64 / max(1,h)) with h the first eight bytes of the proof hash read big endian, saturated at 2^64-1; it never grows when h grows.", "quantifier": "every hash and every scaling factor", "why_tests_cant": "2^128 combinations", "anchors": ["src/PoW/PoWValidator.cpp:GetMaximumDifficulty"]}
{"id": "C25", "title": "Cycle verification accepts only single 42-cycles", "statement": "If the verifier accepts nonces, they are strictly increasing, within range, and the graph edges they denote form one simple cycle of length 42; the verifier always terminates.", "quantifier": "every siphash key, every edge size, every nonce vector", "why_tests_cant": "adversarial nonce vectors; termination of an open-ended loop", "anchors": ["src/PoW/Cuckatoo.cpp", "src/PoW/Cuckaroo.cpp", "src/PoW/Cuckarood.cpp", "src/PoW/Cuckaroom.cpp", "src/PoW/Cuckarooz.cpp"]}
{"id": "C26", "title": "Difficulty adjustment stays in bounds and moves the right way", "statement": "The next required difficulty is never below the minimum, does not increase when the last block took longer, and lies within the clamp/damp window of the observed average; no intermediate 64-bit computation wraps for difficulties in the stated range.", "quantifier": "all difficulty windows and timestamps", "why_tests_cant": "arithmetic over all histories", "anchors": ["src/PoW/DifficultyCalculator.cpp", "src/PoW/DifficultyLoader.cpp", "include/Consensus.h"]}
{"id": "C27", "title": "Block weight limit is enforced without wrap", "statement": "A body accepted by the validator weighs at most the maximum block weight as computed over unbounded integers.", "quantifier": "all numbers of inputs, outputs and kernels", "why_tests_cant": "large counts", "anchors": ["include/Consensus.h", "src/Core/Models/TransactionBody.cpp:CalcWeight", "src/Core/Validation/TxBodyValidator.cpp"]}
{"id": "C28", "title": "Header version follows the hard-fork schedule", "statement": "For each network the header version required at a height is a non-decreasing step function of height that changes exactly at the configured fork heights.", "quantifier": "all heights, all networks", "why_tests_cant": "2^64 heights", "anchors": ["include/Consensus.h:GetHeaderVersion"]}
{"id": "C29", "title": "Cut-through and aggregation preserve the transaction's balance", "statement": "Removing outputs spent within the same aggregate keeps the sum of outputs minus the sum of inputs, never leaves a commitment on both sides, and never drops a kernel; aggregation of transactions sums offsets and keeps every kernel.", "quantifier": "all sets of transactions", "why_tests_cant": "unbounded numbers of inputs/outputs and duplicates", "anchors": ["include/Core/Util/TransactionUtil.h:PerformCutThrough", "include/Core/Util/TransactionUtil.h:Aggregate"]}
{"id": "C30", "title": "Blocks too far in the future are refused", "statement": "A header whose timestamp is more than twelve block times ahead of the node's clock is not accepted.", "quantifier": "all clock values and timestamps", "why_tests_cant": "units mismatch only visible when ranging over real clock values", "anchors": ["include/Consensus.h:GetMaxBlockTime", "src/BlockChain/Validators/BlockHeaderValidator.cpp"]}
{"id": "C31", "title": "The pool holds no transaction spending what a block spent", "statement": "After reconciling with a block no pooled transaction shares an input or a kernel with the block, and every surviving transaction was valid against the new tip.", "quantifier": "all pools, all blocks", "why_tests_cant": "all histories of pool contents", "anchors": ["src/TxPool/Pool.cpp:ReconcileBlock", "src/TxPool/TransactionPoolImpl.cpp"]}
{"id": "C32", "title": "Mempool contents are jointly valid", "statement": "All transactions in the memory pool can be aggregated into one valid transaction (in particular no two spend the same output).", "quantifier": "all sequences of submissions", "why_tests_cant": "order dependent; conflicting transactions", "anchors": ["src/TxPool/TransactionPoolImpl.cpp:AddTransaction", "src/TxPool/Pool.cpp"]}
{"id": "C33", "title": "Stem transactions are kept private until embargo expires", "statement": "A stem transaction is only broadcast publicly once the embargo interval has passed since it entered the stem pool, or when the fluff step selects it.", "quantifier": "all times and pool histories", "why_tests_cant": "timer state over all histories", "anchors": ["src/TxPool/Pool.cpp:AddTransaction", "src/TxPool/Pool.cpp:GetExpiredTransactions"]}
{"id": "C34", "title": "Bounded caches return only what was last stored and evict in policy order", "statement": "A lookup returns the last value put for the key or nothing; the number of entries never exceeds capacity; the evicted entry is the least recently used (LRU) or the oldest (FIFO).", "quantifier": "all operation sequences and capacities >= 1", "why_tests_cant": "all histories", "anchors": ["deps/caches/include/cache.hpp", "deps/caches/include/lru_cache_policy.hpp", "deps/caches/include/fifo_cache_policy.hpp"]}
{"id": "C35", "title": "A range proof is accepted only if it verifies", "statement": "Every (commitment, proof) pair for which verification returns success has itself been verified.", "quantifier": "all sequences of verification batches", "why_tests_cant": "cache state across calls", "anchors": ["src/Crypto/Bulletproofs.cpp", "src/Crypto/BulletProofsCache.h"]}
{"id": "C36", "title": "Coin selection covers amount plus exact fee", "statement": "For every strategy, if selection succeeds then the selected coins are distinct wallet coins whose total is at least amount plus the fee for the resulting number of inputs, outputs and kernels; if it reports insufficient funds then no subset allowed by the strategy suffices.", "quantifier": "all coin lists, amounts, fee bases, numbers of outputs and strategies", "why_tests_cant": "unbounded wallets; 64-bit wrap", "anchors": ["src/Wallet/SlateBuilder/CoinSelection.cpp", "include/Core/Util/FeeUtil.h"]}
{"id": "C37", "title": "A built send conserves value", "statement": "For every successfully built send: total inputs = amount sent + fee + total change, each change output is part of the wallet, and no amount wraps.", "quantifier": "all wallets, amounts and change-output counts", "why_tests_cant": "all numeric combinations", "anchors": ["src/Wallet/SlateBuilder/SendSlateBuilder.cpp", "src/Wallet/SlateBuilder/OutputBuilder.h"]}
{"id": "C38", "title": "A coin is never committed to two live transactions", "statement": "At every moment each locked wallet coin belongs to one not-cancelled transaction; selecting coins never returns a locked, spent or immature coin; cancelling a transaction frees its inputs only.", "quantifier": "all sequences of send, receive, finalize, cancel and refresh", "why_tests_cant": "all histories", "anchors": ["src/Wallet/SlateBuilder/SendSlateBuilder.cpp", "src/Wallet/CancelTx.cpp", "src/Wallet/WalletRefresher.cpp", "src/Wallet/WalletImpl.cpp"]}
{"id": "C39", "title": "Wallet balance categories partition the wallet's outputs", "statement": "Total = spendable + awaiting confirmation + immature, locked is reported apart, each output is counted in exactly one category and spent or cancelled outputs in none.", "quantifier": "all wallet contents and heights", "why_tests_cant": "unbounded wallets", "anchors": ["src/Wallet/WalletImpl.cpp:GetBalance", "src/Wallet/Wallet.cpp:GetBalance"]}
{"id": "C40", "title": "Finalizing yields a kernel the network accepts and never reuses a nonce", "statement": "When both parties follow the exchange, the aggregated signature verifies for the kernel excess which equals outputs minus inputs minus offset; a stored secret nonce signs at most one message.", "quantifier": "all keys, nonces, amounts; all sequences of API calls", "why_tests_cant": "algebra over all scalars and all call histories", "anchors": ["src/Wallet/SlateBuilder/FinalizeSlateBuilder.cpp", "src/Wallet/SlateBuilder/ReceiveSlateBuilder.cpp", "src/Wallet/SlateBuilder/SlateUtil.h"]}
{"id": "C41", "title": "Armored slatepacks and seed phrases round-trip", "statement": "Hex, Base58 (with checksum), slatepack armor framing and mnemonic seed phrases decode to what was encoded, for every byte string, and corrupted checksums are rejected.", "quantifier": "all byte strings (16..32 bytes for mnemonics)", "why_tests_cant": "unbounded data, base conversion and bit packing", "anchors": ["src/Common/Util/HexUtil.cpp", "src/Core/Serialization/Base58.cpp", "include/Wallet/Models/Slatepack/Armor.h", "src/Wallet/Keychain/Mnemonic.cpp"]}
{"id": "C42", "title": "Key derivation paths are never reused", "statement": "Every output or session created by the wallet gets a key path different from every path handed out before, and key paths survive their textual and hex encodings.", "quantifier": "all call histories and all index values", "why_tests_cant": "all histories; 2^32 indices", "anchors": ["include/Wallet/KeyChainPath.h", "src/Wallet/WalletDB/Sqlite/Tables/AccountsTable.cpp", "src/Wallet/WalletImpl.cpp"]}
{"id": "C43", "title": "Only proofs on allowed graph sizes are accepted, and checking a proof is always defined", "statement": "A header whose proof of work claims an edge size below the network minimum for that kind of proof is refused, and checking a proof of any claimed size has defined behaviour.", "quantifier": "every header, every edge size from 0 to 255", "why_tests_cant": "all sizes and all solver outputs; shift amounts outside the word size", "anchors": ["src/PoW/PoWValidator.cpp", "include/Core/Models/ProofOfWork.h", "include/Consensus.h:GraphWeight"]}
{"id": "C44", "title": "Processing a header always terminates", "statement": "Whatever headers a peer sends and in whatever order, processing each header terminates and releases the chain lock.", "quantifier": "every sequence of headers", "why_tests_cant": "all histories; the loop over stored orphans depends on attacker-chosen links", "anchors": ["src/BlockChain/Processors/BlockHeaderProcessor.cpp:ProcessOrphan", "src/BlockChain/OrphanPool/OrphanPool.cpp"]}
{"id": "C45", "title": "An accepted header carries the work it claims", "statement": "A header accepted on top of a previous header has the version, height and timestamp the rules require, adds exactly the difficulty required by the recent headers to the total, contains a valid cycle for the required algorithm on its own bytes whose difficulty is at least that requirement, and commits to the header MMR of its ancestors.", "quantifier": "every header, previous header and database of ancestors", "why_tests_cant": "all headers and histories", "anchors": ["src/BlockChain/Validators/BlockHeaderValidator.cpp", "src/PoW/PoWValidator.cpp"]}
{"id": "C46", "title": "Accepted bodies contain no duplicates and no uncut pairs", "statement": "An accepted transaction or block body never spends the same output twice, never creates the same output twice, never both spends and creates one commitment; and coinbase rules apply to exactly the outputs and kernels marked as coinbase.", "quantifier": "every body, in every order and with every feature byte", "why_tests_cant": "all bodies; depends on the interaction of sorting, hashing and feature bytes", "anchors": ["src/Core/Validation/TxBodyValidator.cpp", "src/Core/Validation/TransactionValidator.cpp", "include/Core/Models/TransactionInput.h", "include/Core/Models/TransactionKernel.h"]}
{"id": "C47", "title": "An accepted block's header commits to the output set", "statement": "If a node accepts a block, the header's sizes and roots are those of the kernels, outputs, range proofs and unspent flags after that block; so two nodes that accepted the same header have the same outputs, the same unspent set and the same kernels.", "quantifier": "every output set reachable by applying and rewinding blocks, and every header", "why_tests_cant": "ranges over all pairs of output sets and all headers an attacker may construct", "anchors": ["src/PMMR/TxHashSetImpl.cpp: TxHashSet::ValidateRoots", "src/BlockChain/Processors/BlockProcessor.cpp: ValidateAndAddBlock", "include/Core/Models/BlockHeader.h: GetNumOutputs"]}
{"id": "C48", "title": "A running node's state is exactly that of its confirmed chain", "statement": "After any sequence of received headers, header batches, blocks in any order, orphan retries, forks, failed blocks and restarts, the node's confirmed chain is the genesis block followed by delivered blocks that each name their predecessor and passed all checks; its unspent outputs, kernels, position index, stored blocks and running sums are exactly those this chain leads to; the value of all unspent outputs is one reward per block; and the chain is only ever continued or replaced by one with strictly more work.", "quantifier": "every sequence of events of any length, including restarts between them, and every block and header content", "why_tests_cant": "ranges over all interleavings of headers, blocks, forks, reorganisations, rejections and restarts", "anchors": ["src/BlockChain/Processors/BlockProcessor.cpp", "src/BlockChain/ChainState.cpp: Create", "src/BlockChain/BlockChainImpl.cpp: ProcessNextOrphanBlock", "src/PMMR/TxHashSetImpl.cpp"]}
{"id": "C49", "title": "Block sync asks for every block it still needs", "statement": "The blocks a syncing node asks its peers for are, in order of height, those of the best header chain above the fork point that it does not have in usable form; a peer cannot make a node stop asking for a genuine block.", "quantifier": "every pair of header chain and confirmed chain, every content of the orphan pool, every sequence of delivered blocks", "why_tests_cant": "ranges over all forks and all blocks a malicious peer may send", "anchors": ["src/BlockChain/ChainState.cpp: GetBlocksNeeded", "src/BlockChain/ChainStore.cpp: FindCommonIndex", "src/BlockChain/OrphanPool/OrphanPool.cpp", "src/BlockChain/Processors/BlockProcessor.cpp: DetermineBlockStatus"]}
{"id": "C50", "title": "A fee estimate is what the send charges", "statement": "When the wallet estimates the fee of a send and the same send is then made, it spends the estimated coins, sends the estimated amount and charges the estimated fee.", "quantifier": "all wallets, amounts, fee bases, strategies and numbers of change outputs", "why_tests_cant": "all wallet contents and parameter combinations", "anchors": ["src/Wallet/Wallet.cpp:EstimateFee", "src/Wallet/SlateBuilder/SendSlateBuilder.cpp:BuildSendSlate"]}
{"id": "C51", "title": "A slate survives its encodings", "statement": "A slate written in binary or JSON form and read back is the same slate with the same participants, inputs, outputs, fee, lock height and payment proof; reading arbitrary bytes never crashes or reads outside them; comparing two slates tells whether they are the same; and loading the stored slate of a transaction gives the one of the latest stage that can be read.", "quantifier": "all slates, all byte strings, all stored histories of a transaction", "why_tests_cant": "all combinations of optional fields, counts, kernel kinds and malformed inputs", "anchors": ["src/Wallet/Models/Slate/Slate.cpp: Serialize, Deserialize, ToJSON, FromJSON", "include/Wallet/Models/Slate/Slate.h: operator==", "include/Wallet/Models/Slate/SlateSignature.h", "include/Wallet/Models/Slate/SlateCommitment.h", "include/Wallet/Models/Slate/SlatePaymentProof.h", "src/Wallet/WalletDB/Sqlite/Tables/SlateTable.cpp: LoadLatestSlate, LoadArmoredSlatepack"]}
{"id": "C52", "title": "Slatepack addresses and messages are read as written", "statement": "The text of an address is read back as that address and as no other, in upper or lower case; a text with up to four wrong characters in its data is refused, and so is every text that is not an address of this network; a slatepack message, plain or encrypted, packed and unpacked gives the sender, recipients and payload it was made from; reading arbitrary text or bytes never crashes or reads outside them.", "quantifier": "all keys, all texts, all messages, all byte strings", "why_tests_cant": "the number of addresses and of ways to corrupt one, and all malformed messages", "anchors": ["deps/bitcoin/src/bech32.cpp: Encode, Decode, PolyMod, CreateChecksum, VerifyChecksum", "include/Wallet/Models/Slatepack/Bech32Address.h: Parse, ToString, FromBase32, ToBase32", "include/Wallet/Models/Slatepack/SlatepackAddress.h", "include/Wallet/Models/Slatepack/SlatepackMessage.h", "include/Wallet/Models/Slatepack/Armor.h"]}
{"id": "C53", "title": "Messages between peers are received as they were sent", "statement": "The messages one peer sends are handed to the other as sent, in order, each once, however the network cuts the stream; a message of another network or longer than its type allows ends the connection; the handshake gives both sides the other's greeting and the lower protocol version, and a node does not connect to itself; no bytes a peer sends make the reader leave its buffers or reserve memory out of proportion to what was received; a malformed message has no effect on other connections; and every message the protocol allows is short enough to be received.", "quantifier": "all sequences of messages, all byte streams, all points at which a stream is cut, all protocol versions", "why_tests_cant": "all byte streams, all splits into reads and all combinations of message fields and counts", "anchors": ["src/P2P/Messages/*.h: SerializeBody, Deserialize", "src/P2P/Connection.cpp: HandleReceivedHeader, HandleReceivedBody", "src/P2P/MessageProcessor.cpp: ProcessMessageInternal", "src/P2P/Seed/HandShake.cpp", "src/P2P/Messages/MessageHeader.h: Deserialize", "include/Net/SocketAddress.h", "include/Net/IPAddress.h", "include/PMMR/Common/Segment.h", "include/PMMR/Common/BitmapSegment.h"]}
{"id": "C54", "title": "A node that asks a peer for headers gets the ones it is missing", "statement": "A header request names at most 20 hashes of the requester's best chain: the tip, hashes at distances that double, and genesis. The answer is the responder's best chain from just after the first of these headers it knows, at most 512 headers, and nothing if it knows none. When the responder's chain continues the requester's, every round that is not refused adds the next 512 headers in order, so that the requester has the whole chain after (missing / 512) rounds. When the chains separate, the answer contains the first header after the fork, so that the requester can move to the heavier chain.", "quantifier": "for every pair of nodes with any best chains, any fork height, any locator list, and any number of rounds", "why_tests_cant": "the positions of the locators relative to a fork, the 512 limit, the chunks of 128 and the unsigned arithmetic on heights interact for unboundedly many chain lengths and fork depths; tests sync short chains without forks", "anchors": ["src/P2P/BlockLocator.cpp: GetLocators, GetLocatorHeights, LocateHeaders, FindCommonHeader", "src/P2P/Sync/HeaderSyncer.cpp: RequestHeaders", "src/P2P/MessageProcessor.cpp: GetHeaders, Headers", "src/BlockChain/ChainState.cpp: GetBlockHeaderByHeight, UpdateSyncStatus", "src/BlockChain/Processors/BlockHeaderProcessor.cpp: ProcessSyncHeaders"]}
{"id": "C55", "title": "Valid blocks are accepted and the branch with most work is adopted", "statement": "A block delivered to a running node that names the confirmed tip and whose header is accepted is accepted exactly if it is one higher than the tip, passes its own check, spends only existing, unspent, mature outputs, creates no output whose commitment is unspent, adds up with the sums of the chain, and its header states the roots of the resulting kernels, outputs, range proofs and unspent set; it then becomes the tip. A block on top of a branch of blocks that were kept aside or wait as orphans is accepted exactly if the whole branch is valid from the fork on; the branch then becomes the confirmed chain if it has more total difficulty, and otherwise the chain stays.", "quantifier": "for every history of headers, blocks, retries and restarts, every fork depth and branch length, and every block", "why_tests_cant": "a refusal of one valid block in some state splits the node from the network for good; the states are all histories of forks, rewinds and restarts, and tests replay a few fixed chains", "anchors": ["src/BlockChain/Processors/BlockProcessor.cpp: ProcessBlock, ProcessBlockInternal, DetermineBlockStatus, HandleReorg, ValidateAndAddBlock", "src/PMMR/TxHashSetImpl.cpp: ApplyBlock, ValidateRoots, Rewind", "src/BlockChain/OrphanPool/OrphanPool.cpp", "src/TxPool/TransactionPoolImpl.cpp: ReconcileBlock"]}
{"id": "C56", "title": "Compact blocks do what full blocks do", "statement": "A block announced in compact form (header, coinbase, short ids of the other kernels) is rebuilt exactly by every node whose memory pool holds its transactions, and is then processed exactly as if it had been sent in full. If a short id matches nothing in the pool, nothing changes and the full block is requested from the peer. Whatever compact block a peer sends, the node does no more than it would do with some full block under the same header, and it announces the block only if that block was added.", "quantifier": "for every block, every nonce, every content of the memory pool and every state of the chain; for every compact block a peer can send", "why_tests_cant": "Whether a block is rebuilt exactly depends on which transactions, aggregates and short-id collisions are in the pool and on cut-through between them; tests use pools that hold exactly the transactions of the block.", "anchors": ["src/Core/Models/ShortId.cpp: ShortId::Create", "src/BlockChain/CompactBlockFactory.cpp: CreateCompactBlock", "src/BlockChain/BlockHydrator.cpp: BlockHydrator::Hydrate", "src/TxPool/Pool.cpp: GetTransactionsByShortId", "src/BlockChain/BlockChainImpl.cpp: AddCompactBlock", "src/P2P/MessageProcessor.cpp: CompactBlock"]}
{"id": "C57", "title": "A downloaded output set is taken over exactly or not at all", "statement": "A node that receives an archive of the output set writes exactly the announced number of bytes and notices when they do not all come. It takes the archive over only if the block it is for is on its best header chain and the set is valid for that block; the confirmed chain then ends with that block, the set and the sums are stored together, and the node goes on with the next block. An archive that is not taken over leaves the node as it was. A node that is asked for an archive sends the whole file, at most one to a peer within two hours, and goes on talking to the peer afterwards.", "quantifier": "for every archive, every announced size, every stream of bytes, every sequence of requests and every state of the chains", "why_tests_cant": "The failures depend on sizes of gigabytes, on sizes that are not multiples of the buffer, on archives that were not asked for, and on which blocks are already confirmed; no unit test runs two nodes against each other.", "anchors": ["src/P2P/Pipeline/TxHashSetPipe.cpp: ReceiveTxHashSet, Thread_ProcessTxHashSet, SendTxHashSet, Thread_SendTxHashSet", "src/BlockChain/Processors/TxHashSetProcessor.cpp: ProcessTxHashSet, UpdateConfirmedChain", "src/BlockChain/BlockChainImpl.cpp: ProcessTransactionHashSet", "src/P2P/Connection.cpp: SendAsync, ReceiveSync"]}
{"id": "C58", "title": "Synchronization asks for what is needed and bans only those who fail", "statement": "The node follows a peer that claims the most work. It says that it is synchronized only when its headers and blocks have caught up with that peer (less than five behind, and not behind at all at the start). It asks only for blocks that it needs, does not have and is not processing, each once in a turn, at most 16 from a new peer, and never forgets one of the first 15 blocks it needs. A peer that claims more work but sends no headers is banned after two time limits; a peer that answers in time, or whose connection merely ended, is not banned.", "quantifier": "for every sequence of turns of the synchronization thread, every set of connections, heights, claimed work, times and answers in each turn", "why_tests_cant": "The outcome depends on the interleaving of turns, time-outs, disconnections and chain changes; there are no tests of the synchronization thread, and it would take hours and many peers to reach the cases.", "anchors": ["src/P2P/Sync/Syncer.cpp: Thread_Sync", "src/P2P/Sync/HeaderSyncer.cpp: SyncHeaders, IsHeaderSyncDue, RequestHeaders", "src/P2P/Sync/StateSyncer.cpp: SyncState, IsStateSyncDue, RequestState", "src/P2P/Sync/BlockSyncer.cpp: SyncBlocks, IsBlockSyncDue, RequestBlocks", "src/P2P/ConnectionManager.cpp: GetMostWorkPeer, GetMostWorkPeers, PruneConnections, UpdateSyncStatus"]}
{"id": "C59", "title": "Only the password or a valid token gives access to an account", "statement": "The seed of an account is given to whoever gives its current password, and to nobody else; changing the password makes the new one the only one. A token given at a log in gives access to the account of that user, and only with its key, until the session is ended, whatever other users and sessions do. An operation that fails changes nothing. An account can be deleted with its password exactly when no session of it is open. Payments that come in for a logged-in user are received with the keys of that user. One can log in under the name under which the account was made.", "quantifier": "for every sequence of creations, restorations, log ins, log outs, deletions, changes of passwords and uses, by any number of users, with any names, passwords, random bytes and tokens", "why_tests_cant": "Sessions, listeners and open databases are counted separately and must agree after every history; the tests log in one user once.", "anchors": ["src/Wallet/WalletManagerImpl.cpp: InitializeNewWallet, RestoreFromSeed, Login, Logout, DeleteWallet, ChangePassword, GetSeedWords", "src/Wallet/SessionManager.cpp: Login, Logout, GetSeed, Authenticate", "src/Wallet/ForeignController.cpp: StartListener, StopListener", "src/Wallet/Keychain/SeedEncrypter.cpp: EncryptWalletSeed, DecryptWalletSeed", "src/Wallet/WalletDB/Sqlite/SqliteStore.cpp: OpenWallet, CloseWallet, CreateWallet, DeleteWallet", "src/API/Wallet/Owner/Handlers/*.h"]}
{"id": "C60", "title": "A wallet finds its outputs in the chain", "statement": "A refresh of the wallet finds every unspent output of the chain that belongs to it and is not known yet, also if it was received by another wallet with the same seed, and it finds nothing else: each output found was unspent when the node was asked, its range proof can be read with the seed, and it is stored with its own commitment, place, height and with the amount and path in the proof. The search always ends. A restored wallet thus has all its money again after one refresh, however the chain grows or changes during the search.", "quantifier": "for every chain, growing or reorganized between and during searches, every keychain, every sequence of refreshes, and every number of outputs", "why_tests_cant": "The search goes through batches of 1000 leaves with indices kept across refreshes, while blocks are added and outputs are spent; the tests use a node that gives no outputs or a chain of a few blocks that does not change.", "anchors": ["src/Wallet/OutputRestorer.cpp: FindAndRewindOutputs, GetWalletOutput, BuildWalletOutput", "src/PMMR/TxHashSetImpl.cpp: GetOutputsByLeafIndex", "src/Wallet/WalletRefresher.cpp: FindNewOutputs", "src/Wallet/WalletDB/Sqlite/WalletSqlite.cpp: GetRestoreLeafIndex, UpdateRestoreLeafIndex"]}
{"id": "C61", "title": "Whom a node connects to, accepts, bans and recommends", "statement": "A node connects only to known peers that are not banned, not connected and not tried in the last five minutes, and finds one whenever there is one; it accepts and tries only addresses the configured lists permit, and goes on accepting others after refusing some; a banned peer is neither accepted nor connected to for three hours and its connection ends; a malformed message ends its own connection and nothing else; at most the configured number of connections is kept, never two to one peer; and peers recommended to others are known and in good standing.", "quantifier": "for every set of peers, every start of the random search, every configuration of lists, and every history of connections, messages, bans, clean-ups, failures and restarts", "why_tests_cant": "There are no tests of peers and connections; the claims are about every interleaving of five threads' events over days, and about random starts of a search.", "anchors": ["src/P2P/Seed/PeerManager.cpp: GetNewPeer, GetPeers, GetPeersWithCapability, AddFreshPeers, BanPeer, UnbanPeer, Thread_ManagePeers", "src/P2P/Seed/Seeder.cpp: Accept, SeedNewConnection", "src/P2P/Connection.cpp: Disconnect, IsConnectionActive, Thread_Connect, HandleReceivedBody, CheckPing, BanPeer", "src/P2P/MessageProcessor.cpp: ProcessMessage", "include/P2P/Peer.h", "src/Database/PeerDBImpl.cpp: OpenDB", "src/Core/Config.cpp: IsPeerAllowed, IsPeerBlocked, IsPeerPreferred"]}
{"id": "C62", "title": "Messages handed to a connection are sent in order, once and whole", "statement": "Every message handed to a connection, by whichever thread, is written to its socket whole, exactly once, in the order in which the calls were made; each message is eventually written if writes end, and a connection that is open never becomes mute.", "quantifier": "for every sequence of messages, every interleaving of the threads that send with the handler of finished writes, and every amount of room in the buffer of the system", "why_tests_cant": "There are no tests of sockets; the failures need an interleaving of two threads within a few instructions, or a full buffer of the system.", "anchors": ["src/Net/Socket.cpp: SendAsync, HandleSent", "src/P2P/Connection.cpp: SendAsync", "include/Net/Socket.h: m_writeQueue"]}
{"id": "C63", "title": "Blocks and transactions received from peers are handed to the block chain once, in order, and only those who sent bad ones are banned", "statement": "Every block received while blocks are downloaded is handed to the block chain exactly once, unless the same block already waits; not before one received eight places earlier; every transaction exactly once and in order. A peer is banned exactly for each block or transaction that the block chain refuses as invalid. The kernels of a transaction are announced, to every connection but the one it came from, exactly if it was received fluffed and was added; those of stemmed transactions are not. A good block or a fluffed transaction is never lost because of what another peer sent.", "quantifier": "for every sequence of arrivals, every interleaving of the threads of the pipes and of other users of the block chain, and every behaviour of the block chain", "why_tests_cant": "There are no tests of the pipes; what is processed depends on the interleaving of arrivals with up to eight tasks and on what the block chain answers.", "anchors": ["src/P2P/Pipeline/BlockPipe.cpp: AddBlockToProcess, Thread_ProcessNewBlocks, ProcessNewBlock, IsProcessingBlock", "src/P2P/Pipeline/TransactionPipe.cpp: AddTransactionToProcess, Thread_ProcessTransactions", "include/Common/ConcurrentQueue.h: copy_front, pop_front, push_back_unique", "src/BlockChain/BlockChainImpl.cpp: AddTransaction"]}
{"id": "C64", "title": "Onion addresses are read as they were written and stand for one service each", "statement": "The onion address made for a public key is 56 lower-case characters that spell key, checksum and version 3, and reading it gives the key back. A text is accepted exactly if it spells a valid key with its checksum and version 3; no text stands for two keys, and two accepted texts for the same key are the same address.", "quantifier": "for every public key, every text, every hash function with 32 bytes of output and every test of keys", "why_tests_cant": "Tests read a few addresses; that nothing else is accepted and that each key has one address is about all texts.", "anchors": ["src/Net/Tor/TorAddressParser.cpp: Parse, FromPubKey, IsValid, BuildChecksum", "include/Net/Tor/TorAddress.h: operator==", "deps/cppcodec/cppcodec/base32_rfc4648.hpp", "deps/cppcodec/cppcodec/detail/base32.hpp: index, decode_block", "deps/cppcodec/cppcodec/detail/stream_codec.hpp: encode, decode"]}
{"id": "C65", "title": "What the wallet stores is what it reads back", "statement": "After any history of saves the outputs and transactions of a wallet are, for each commitment and each id, exactly the ones saved last, unchanged; the private context saved for a slate is the one loaded for it, and saving it changes no other and never replaces one. Every kind of data and every slate has its own encryption key.", "quantifier": "for every seed, every sequence of saves of any outputs and transactions, every context, all random bytes, and every cipher whose decryption undoes its encryption", "why_tests_cant": "Tests store a few objects; that no combination of optional fields, order of objects or history of overwrites loses or mixes data is about all of them.", "anchors": ["include/Wallet/WalletDB/Models/OutputDataEntity.h: Serialize, Deserialize", "include/Wallet/WalletDB/Models/SlateContextEntity.h: Serialize, Deserialize", "include/Wallet/WalletTx.h: Serialize, Deserialize", "src/Wallet/WalletDB/WalletEncryptionUtil.cpp: Encrypt, Decrypt, CreateSecureKey", "src/Wallet/WalletDB/Sqlite/Tables/OutputsTable.cpp: AddOutputs, GetOutputs", "src/Wallet/WalletDB/Sqlite/Tables/TransactionsTable.cpp: AddTransactions, GetTransactions, GetTransactionById", "src/Wallet/WalletDB/Sqlite/Tables/SlateContextTable.cpp: SaveSlateContext, LoadSlateContext, DeriveAESKey"]}
{"id": "C66", "title": "A query is answered with what was asked for", "statement": "Asking a node for a block or header by hash, by output commitment or by height gives the block or header of that hash, of the height recorded for that output, or of that height of the chain, and nothing if there is none; any other text is refused. Asking for the outputs of a range of heights gives the blocks of the confirmed chain in that range, in order, each with its outputs that have a recorded position. A JSON-RPC request is answered once under its own id, its method is called exactly once and only for well-formed requests; everything else is refused and calls nothing.", "quantifier": "for every chain and store, every text, hash, commitment, height and range, every body of a request and every set of methods", "why_tests_cant": "Tests ask for a few heights and hashes; the texts that are read in several ways, ranges beyond the end and all shapes of requests are an infinite input space.", "anchors": ["src/Server/Node/API/BlockAPI.cpp: GetBlock", "src/Server/Node/API/HeaderAPI.cpp: GetHeader", "src/Server/Node/API/ChainAPI.cpp: GetChainOutputsByHeight_Handler", "src/BlockChain/BlockChainImpl.cpp: GetOutputsByHeight", "src/BlockChain/Chain.cpp: GetByHeight", "include/Net/Servers/RPC/RPCServer.h: APIHandler", "include/Net/Clients/RPC/RPC.h: Request::Parse"]}
{"id": "C67", "title": "A transaction handed to a node through the API arrives as it was built and goes where the caller says", "statement": "A transaction a wallet posts to a node through JSON-RPC is the transaction the node hands to its pool: writing it as JSON and reading it changes nothing. Whatever parameters are sent, at most one transaction is handed to the pools, only if it is valid, and success is answered if and only if it was added; bad input is answered with an error. A transaction posted without fluff is not announced.", "quantifier": "for every transaction, every JSON value sent as parameters, every hash function and every answer of validation and pool", "why_tests_cant": "Tests post a few plain transactions; kinds of kernels, fee shifts, empty lists and malformed input form an infinite input space.", "anchors": ["src/API/Node/Handlers/PushTransactionHandler.h: Handle", "src/Server/Node/NodeClients/RPCNodeClient.h: PostTransaction", "src/Core/Models/Transaction.cpp: ToJSON, FromJSON", "src/Core/Models/TransactionBody.cpp: ToJSON, FromJSON", "src/Core/Models/TransactionKernel.cpp: ToJSON, FromJSON", "src/Crypto/Crypto.cpp: ParseCompactSignature", "include/Core/Util/JsonUtil.h", "src/P2P/P2PServerImpl.cpp: BroadcastTransaction"]}
{"id": "C68", "title": "An encrypted message is read by its recipients, by nobody else, and only as it was written", "statement": "What is encrypted for a list of recipients is read back unchanged by each of them, whoever the others are, and by nobody else. A text is only ever returned if every part of it, to the last, was sealed with a key that was sealed for the reader; a message cut between parts, or with another header than its sender gave it, is refused. Reading a message from a stranger always has a defined result.", "quantifier": "for every text of every length, all lists of recipients, all keys, random choices and received bytes, and all ciphers with the usual laws", "why_tests_cant": "Tests encrypt one short text for one or two recipients; they cannot range over lengths across pieces, lists of recipients, cuts and crafted messages.", "anchors": ["src/Crypto/Age.cpp: Encrypt, Decrypt, TryDecrypt, BuildRecipientLines", "include/Crypto/Age/Header.h", "include/Crypto/Age/RecipientLine.h", "include/Crypto/ChaChaPoly.h: StreamEncrypt, StreamDecrypt, Decrypt", "include/Core/Serialization/Base64.h", "include/Wallet/Models/Slatepack/SlatepackMessage.h: EncryptPayload, DecryptPayload"]}
