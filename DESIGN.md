# huobi-chain: formal model in Rocq (Coq 8.16.1)

## 1. Approach

`/repo` is read as text and modelled function by function as total, computable
Gallina functions in `rocq/theories/*.v`. Every definition carries a comment
with the file and lines it models, and says where it simplifies. Panics are an
explicit result value (`Panic`), errors are data, `u64` arithmetic is modulo
2^64 (a release build) and its wrap is written out. External code (hash
function, signature scheme, compression, trie root function, other peers, time,
hash-map iteration order, schedulers, the transport, the overlord engine) is a
universally quantified argument of the theorem (a section variable discharged
at the end of the section, or an explicit oracle), never an axiom.

Files come in groups: `X.v` (model), `XSpec.v` (the small independent
specification the statements use), `XFacts.v`/`XProps.v`/`XMore.v` (proofs),
`PropX.v` (property theorems only, each closed by `exact` and followed by
`Print Assumptions`) and `XExamples.v` or `Example`s beside the theorems
(concrete non-trivial states meeting the hypotheses).

A property the code violates is settled by a theorem whose name ends in
`_refuted` next to the strongest true statement. Where possible a refutation is
itself universal ("for every node/pool/history meeting these conditions the
property fails"), otherwise it is a witness computed by the model. In
`MANIFEST.json` "proved" then means: the question whether the property holds is
settled by the listed theorems (the note says how).

Collision-dependent statements never assume an injective digest (no such
function exists); they either exhibit the colliding pair or ask for injectivity
on the finitely many values actually hashed (`clash_free`, `no_collision`).

## 2. Plan per property

| Id | Property | Model | Method | Verdict | Theorems in |
|---|---|---|---|---|---|
| C01 | Fixed (consensus) codec round-trips | `Rlp`, `FixedCodec` | "item i of an encoded list is the i-th encoded item", then composition per type | holds | PropCodec.v |
| C02 | Transaction hash binds the transaction content | `FixedCodec` | injectivity from C01; every digest function; computed witness for refutations | holds | PropCodec.v |
| C03 | Approve transactions have distinct, decodable encodings | `FixedCodec` | injectivity from C01; every digest function; computed witness for refutations | false of the code | PropCodec.v |
| C04 | Wire (protobuf) codec round-trips | `Proto`, `Wire` | generic field-list round trip of the two-pass parser, then per message; totality by case analysis | false of the code in stated cases; exact/true part proved | PropWire.v |
| C05 | Hex and address text forms | `Hex`, `Types` | induction on strings; exact acceptance characterisation | holds | PropCodec.v |
| C06 | Address derivation | `Hex`, `Types` | induction on strings; exact acceptance characterisation | holds | PropCodec.v |
| C07 | Decoding untrusted bytes never crashes the node | `Rlp`, `FixedCodec` | case analysis of the decoders with panic as a result value | false of the code in stated cases; exact/true part proved | PropCodec.v |
| C08 | State encoding does not depend on insertion history | `FixedCodec` | the map is written in key order: permutation invariance | holds | PropCodec.v |
| C09 | One value, one accepted encoding | `FixedCodec` | injectivity from C01; every digest function; computed witness for refutations | false of the code | PropCodec.v |
| C10 | Asset conservation | `StateAdapter`, `Executor` | refinement of each transaction to a ledger (`ExecSpec`), induction over the transaction list; for C10 also over genesis + blocks histories (`ExecChain`) | holds | PropExecutor.v |
| C11 | Exact effect of a successful transfer; no overdraft | `StateAdapter`, `Executor` | refinement of each transaction to a ledger (`ExecSpec`), induction over the transaction list; for C10 also over genesis + blocks histories (`ExecChain`) | holds | PropExecutor.v |
| C12 | Failed transactions have no effect | `StateAdapter`, `Executor` | refinement of each transaction to a ledger (`ExecSpec`), induction over the transaction list; for C10 also over genesis + blocks histories (`ExecChain`) | holds | PropExecutor.v, PropFailed.v |
| C13 | Receipts match the block | `StateAdapter`, `Executor` | refinement of each transaction to a ledger (`ExecSpec`), induction over the transaction list; for C10 also over genesis + blocks histories (`ExecChain`) | holds | PropExecutor.v |
| C14 | Cycles never exceed the transaction's limit | `StateAdapter`, `Executor` | refinement of each transaction to a ledger (`ExecSpec`), induction over the transaction list; for C10 also over genesis + blocks histories (`ExecChain`) | holds | PropExecutor.v |
| C15 | Contract state adapter is a layered map | `StateAdapter` | refinement of cache/stash/trie to a layered map, byte level and typed | holds | PropExecutor.v |
| C16 | State root is deterministic | `StateAdapter`, `Executor` | all iteration orders of the stash maps (permutations) | holds | PropExecutor.v |
| C17 | Asset registration | `StateAdapter`, `Executor` | refinement of each transaction to a ledger (`ExecSpec`), induction over the transaction list; for C10 also over genesis + blocks histories (`ExecChain`) | holds | PropExecutor.v |
| C18 | Coinbase receives the fees | `Executor` | exact committed value for every block; computed witness for the refutation | false of the code in stated cases; exact/true part proved | ExecExamples.v, PropExecutor.v |
| C19 | Nonce accounting | `Executor` | exact committed value for every block; computed witness for the refutation | false of the code in stated cases; exact/true part proved | ExecExamples.v, PropExecutor.v |
| C20 | A single transaction cannot abort a block | `StateAdapter`, `Executor` | refinement of each transaction to a ledger (`ExecSpec`), induction over the transaction list; for C10 also over genesis + blocks histories (`ExecChain`) | false of the code in stated cases; exact/true part proved | ExecExamples.v, PropExecutor.v |
| C21 | Fees are aggregated per asset | `StateAdapter`, `Executor` | refinement of each transaction to a ledger (`ExecSpec`), induction over the transaction list; for C10 also over genesis + blocks histories (`ExecChain`) | holds | PropExecutor.v |
| C22 | Genesis state is exactly the allocation | `Executor` | computation of the genesis maps; reopening under `clash_free` | holds | PropExecutor.v |
| C23 | Untouched accounts are unchanged | `StateAdapter`, `Executor` | refinement of each transaction to a ledger (`ExecSpec`), induction over the transaction list; for C10 also over genesis + blocks histories (`ExecChain`) | holds | PropExecutor.v |
| C24 | A committed state root can be reopened | `Executor` | computation of the genesis maps; reopening under `clash_free` | holds | PropExecutor.v |
| C25 | Fees are paid by the sender | `StateAdapter`, `Executor` | refinement of each transaction to a ledger (`ExecSpec`), induction over the transaction list; for C10 also over genesis + blocks histories (`ExecChain`) | false of the code in stated cases; exact/true part proved | ExecExamples.v, PropExecutor.v |
| C26 | A Merkle proof proves exactly its hash | `MerkleProof` over `Merkle` | induction over the tree; collision-freedom only on the strings hashed | false of the code in stated cases; exact/true part proved | PropMerkle.v |
| C27 | The pool size bounds concurrent submissions | `AdmitConc` over `MempoolConc` | invariant over all interleavings: pooled plus cleared submissions; explicit schedule, by induction over the transactions, for the refutation | false of the code in stated cases; exact/true part proved | PropAdmit.v |
| C28 | A gossiped transaction is pooled by the nodes it reaches | `Gossip` over `Mempool`, `Broadcaster`, `ConsMsg` | outcome of one insert, induction over the batch and over the batches; message round trip C66; refutations for every such transaction | false of the code in stated cases; exact/true part proved | PropGossip.v |
| C29 | A submitted transfer is carried out | `Api`, `Mempool`, `Consensus`, `Executor`, `Storage` together | composition: C80 (request), lone_proposal, C95, C60, C24 (reopening), C11/C13/C17 (execution), read-back of the batch written | holds | PropEnd.v |
| C30 | Insert accepts exactly new transactions within capacity | `Mempool` | invariant over all operation lists; refinement to a list specification (`MempoolSpec`) | false of the code in stated cases; exact/true part proved | MempoolExamples.v, PropMempool.v |
| C31 | Pool size bound | `Mempool` | invariant over all operation lists; refinement to a list specification (`MempoolSpec`) | false of the code in stated cases; exact/true part proved | MempoolExamples.v, PropMempool.v |
| C32 | Packaging respects first-in first-out | `Mempool` | invariant over all operation lists; refinement to a list specification (`MempoolSpec`) | holds | PropMempool.v |
| C33 | Packaging respects the cycles limit | `Mempool` | invariant over all operation lists; refinement to a list specification (`MempoolSpec`) | false of the code in stated cases; exact/true part proved | MempoolExamples.v, PropMempool.v |
| C34 | Packaged lists have no duplicates and are disjoint | `Mempool` | invariant over all operation lists; refinement to a list specification (`MempoolSpec`) | holds | PropMempool.v |
| C35 | Expired and flushed transactions are never packaged | `Mempool` | invariant over all operation lists; refinement to a list specification (`MempoolSpec`) | holds | PropMempool.v |
| C36 | Packaging loses no live transaction | `Mempool` | invariant over all operation lists; refinement to a list specification (`MempoolSpec`) | holds | PropMempool.v |
| C37 | Flush removes exactly the given transactions | `Mempool` | invariant over all operation lists; refinement to a list specification (`MempoolSpec`) | holds | PropMempool.v |
| C38 | get_full_txs returns the requested transactions in order | `Mempool` | invariant over all operation lists; refinement to a list specification (`MempoolSpec`) | holds | PropMempool.v |
| C39 | Order transactions are complete before voting | `Mempool`, `NetMsg` | same invariant, peers and storage are oracles | false of the code in stated cases; exact/true part proved | MempoolExamples.v, PropMempool.v |
| C40 | Pulled transactions are authentic | `Mempool`, `NetMsg` | same invariant, peers and storage are oracles | false of the code in stated cases; exact/true part proved | PropMempool.v |
| C41 | Admission check | `Mempool` | invariant over all operation lists; refinement to a list specification (`MempoolSpec`) | false of the code in stated cases; exact/true part proved | PropMempool.v |
| C42 | Concurrent insertion and packaging | `MempoolConc` | small-step relation over atomic actions, inductive invariant over all schedules | false of the code in stated cases; exact/true part proved | PropMempoolConc.v |
| C43 | Sharded map behaves as one map | `TxMap` | refinement of the 16 buckets to one map | holds | PropMempool.v |
| C44 | Transaction broadcast batching | `Broadcaster` | induction over schedules of sends, ticks and gossip answers | false of the code in stated cases; exact/true part proved | PropBroadcaster.v |
| C45 | Liveness of the pool head | `Mempool` | invariant: the head stays for every later history; computed witness | false of the code in stated cases; exact/true part proved | PropMempool.v |
| C46 | Proposed transactions are not re-proposed | `Mempool` | invariant: the head stays for every later history; computed witness | false of the code in stated cases; exact/true part proved | MempoolExamples.v, PropMempool.v |
| C47 | Exactly the node's own new transactions are broadcast | `Mempool`, `NetMsg` | same invariant, peers and storage are oracles | holds | PropMempool.v |
| C48 | A peer's pull of transactions is answered | `Mempool`, `NetMsg` | same invariant, peers and storage are oracles | false of the code | PropConsMsg.v |
| C49 | An accepted transaction is kept until it is committed or expires | `Mempool` in `Consensus` | induction over the calls, each call by cases on what it does to the pool | false of the code in stated cases; exact/true part proved | PropKept.v |
| C50 | Storage reads return the last write | `Storage` | refinement to one abstract map per schema, injectivity of key encodings; crash = any prefix of the atomic writes | false of the code in stated cases; exact/true part proved | PropStorage.v |
| C51 | Keys of different schemas never collide | `Storage` | refinement to one abstract map per schema, injectivity of key encodings; crash = any prefix of the atomic writes | false of the code in stated cases; exact/true part proved | PropStorage.v |
| C52 | Batch reads | `Storage` | refinement to one abstract map per schema, injectivity of key encodings; crash = any prefix of the atomic writes | holds | PropStorage.v |
| C53 | Parent lookup by hash | `Storage` | refinement to one abstract map per schema, injectivity of key encodings; crash = any prefix of the atomic writes | false of the code | PropStorage.v |
| C54 | Wire decoding is total | `Proto`, `Wire` | generic field-list round trip of the two-pass parser, then per message; totality by case analysis | false of the code in stated cases; exact/true part proved | PropWire.v |
| C55 | Epoch tables survive a crash at any write | `Storage` | refinement to one abstract map per schema, injectivity of key encodings; crash = any prefix of the atomic writes | holds | PropStorage.v |
| C56 | A storage schema behaves as a map | `Storage` | refinement to one abstract map per schema, injectivity of key encodings; crash = any prefix of the atomic writes | holds | PropStorage.v |
| C57 | The file of known peers survives a crash | `PeerFile` over `Bincode`, `PeerManager` | decoders look only at what they take (compositional), so every proper beginning of an encoding is refused; round trip by induction | false of the code in stated cases; exact/true part proved | PropPeerFile.v |
| C58 | Registering and listening take effect or fail | `NetService` over `NetMsg` | invariant over all histories of calls | false of the code in stated cases; exact/true part proved | PropNetService.v |
| C59 | A node runs on its configuration and on the data of its chain | `Boot` over `Consensus`, `Hex` | outcomes of main by cases over what can be read; refutations for every configuration and disk | false of the code in stated cases; exact/true part proved | PropBoot.v |
| C60 | Committing extends the chain by one linked epoch | `Consensus` | transition system of boots, engine calls, peer answers and crashes after any durable write; inductive invariants over histories | holds | PropConsensus.v |
| C61 | Crash-safe commit order | `Consensus` | transition system of boots, engine calls, peer answers and crashes after any durable write; inductive invariants over histories | false of the code in stated cases; exact/true part proved | PropConsensus.v, PropConsensus2.v |
| C62 | Restart resumes from the post-state of the latest epoch | `Consensus` | transition system of boots, engine calls, peer answers and crashes after any durable write; inductive invariants over histories | false of the code in stated cases; exact/true part proved | PropConsensus.v |
| C63 | Synchronisation only accepts hash-linked epochs | `Consensus` | transition system of boots, engine calls, peer answers and crashes after any durable write; inductive invariants over histories | false of the code in stated cases; exact/true part proved | PropConsensus.v, PropConsensus2.v |
| C64 | A proposal is voted for only if checked | `Consensus` | transition system of boots, engine calls, peer answers and crashes after any durable write; inductive invariants over histories | false of the code in stated cases; exact/true part proved | PropConsensus2.v |
| C65 | Authority list | `Consensus` | transition system of boots, engine calls, peer answers and crashes after any durable write; inductive invariants over histories | holds | PropConsensus2.v |
| C66 | Consensus message codecs | `ConsMsg`, `Bincode` | round trip per message | false of the code in stated cases; exact/true part proved | PropConsMsg.v |
| C67 | A committed transaction is not accepted again | `Consensus` | transition system of boots, engine calls, peer answers and crashes after any durable write; inductive invariants over histories | false of the code in stated cases; exact/true part proved | PropConsensus2.v |
| C68 | The order root commits to the ordered transactions | `Merkle` | induction over tree shapes, every digest | false of the code in stated cases; exact/true part proved | PropConsMsg.v |
| C69 | Synchronisation continues from the node's state and only moves forward | `Consensus` | transition system of boots, engine calls, peer answers and crashes after any durable write; inductive invariants over histories | false of the code in stated cases; exact/true part proved | PropConsensus2.v |
| C70 | RPC responses reach exactly their caller | `RpcMap`, `NetMsg` | invariant over schedules of calls, responses and time-outs | false of the code in stated cases; exact/true part proved | PropNet.v |
| C71 | Endpoint parsing | `Endpoint`, `NetMsg` | exact acceptance characterisation; routing by case analysis; codecs as hypotheses | holds | PropNet.v |
| C72 | Message routing | `Endpoint`, `NetMsg` | exact acceptance characterisation; routing by case analysis; codecs as hypotheses | holds | PropNet.v |
| C73 | Network envelope round-trip | `Endpoint`, `NetMsg` | exact acceptance characterisation; routing by case analysis; codecs as hypotheses | holds | PropNet.v |
| C74 | Session tables stay consistent | `PeerManager` | invariants over all histories of events and routine runs; tables characterised by the last relevant event | false of the code in stated cases; exact/true part proved | PropPeers.v |
| C75 | users_cast delivers or reports | `PeerManager` | invariants over all histories of events and routine runs; tables characterised by the last relevant event | holds | PropConn.v, PropPeers.v |
| C76 | Failed dials are retried | `PeerManager` | invariants over all histories of events and routine runs; tables characterised by the last relevant event | false of the code in stated cases; exact/true part proved | PropPeers.v |
| C77 | Bootstrap peers are never forgotten | `PeerManager` | invariants over all histories of events and routine runs; tables characterised by the last relevant event | holds | PropPeers.v |
| C78 | Connection slots | `PeerManager` | invariants over all histories of events and routine runs; tables characterised by the last relevant event | false of the code in stated cases; exact/true part proved | PropPeers.v |
| C79 | Connection commands are not lost or reordered while the transport is busy | `Connection` | invariant over schedules, the transport is an oracle | holds | PropConn.v |
| C80 | API conversions are faithful | `Api` | composition of C05, codecs and storage facts | false of the code in stated cases; exact/true part proved | PropApi.v |
| C81 | API balance reflects the requested epoch | `Api` | composition of C05, codecs and storage facts | false of the code in stated cases; exact/true part proved | ApiExamples.v, PropApi.v |
| C82 | The node's endpoints are wired to the right handlers | `Endpoint`, `NetMsg` | exact acceptance characterisation; routing by case analysis; codecs as hypotheses | false of the code in stated cases; exact/true part proved | PropNet.v, PropWiring.v |
| C83 | A peer the manager gives up on is disconnected | `PeerManager` | invariants over all histories of events and routine runs; tables characterised by the last relevant event | false of the code in stated cases; exact/true part proved | PropPeers.v |
| C84 | Back-off of failing peers | `PeerManager` | invariants over all histories of events and routine runs; tables characterised by the last relevant event | false of the code in stated cases; exact/true part proved | PropPeers.v |
| C85 | Known peers survive a restart | `PeerManager` | invariants over all histories of events and routine runs; tables characterised by the last relevant event | false of the code in stated cases; exact/true part proved | PropPeersRestart.v |
| C86 | Recorded sessions are the transport's | `Keeper`, `PeerManager` | invariant of transport, event queue and manager: replaying the queue from what the manager was told gives what is open; refutations for every continuation or number | false of the code in stated cases; exact/true part proved | PropKeeper.v |
| C87 | The connection limit is enforced | `Keeper`, `PeerManager` | invariant of transport, event queue and manager: replaying the queue from what the manager was told gives what is open; refutations for every continuation or number | false of the code | PropKeeper.v |
| C88 | Addresses come from somewhere and failures go to their owner | `Keeper`, `PeerManager` | invariant of transport, event queue and manager: replaying the queue from what the manager was told gives what is open; refutations for every continuation or number | false of the code in stated cases; exact/true part proved | PropKeeper.v |
| C89 | Catching up from an honest peer copies its chain | `SyncSpec` (peer over `Consensus`, `ConsMsg`) | two nodes: induction over pulls with an exact invariant of the copying disk; peer hypotheses derived from any history; a peer that goes on answers the same (`PropGrow`, from C96) | holds | PropGrow.v, PropSync.v |
| C90 | No money appears or disappears | `Consensus` over `Executor`, `LedgerSpec` | invariant of the trie store along histories: every root belongs to a trie of a whole or an empty ledger (C16 per block, ledger_or_none across openings) | holds | PropLedger.v |
| C91 | Nodes given the same blocks agree | `ReplicaSpec` over `Consensus`; `Mempool` | each machine is simulated by a function of the blocks handed to its executor; iteration orders by C12; refutations by a pair of concrete nodes and for every transaction | false of the code in stated cases; exact/true part proved | PropReplica.v, ReplicaExamples.v |
| C92 | The hash of a transaction identifies its sender | `ReplicaSpec` over `Consensus`; `Mempool` | each machine is simulated by a function of the blocks handed to its executor; iteration orders by C12; refutations by a pair of concrete nodes and for every transaction | false of the code | PropReplica.v |
| C93 | A commit that fails can be made again | `Consensus` over `Mempool` and `Executor` | the pool of a running node is a pool reached by API calls (induction over histories), so the pool theorems apply; outcomes of the two halves of a commit; C20 and C90 for the execution | false of the code | PropHalt.v |
| C94 | A node can always go on from what it has stored | `Consensus` | invariant over all histories from the disk: only the latest proof changes; reachability by a concrete run evaluated in the kernel | false of the code | PropStuck.v, StuckExamples.v |
| C95 | A node's own proposals go through | `Consensus` over `Mempool` and `Executor` | the pool of a running node is a pool reached by API calls (induction over histories), so the pool theorems apply; outcomes of the two halves of a commit; C20 and C90 for the execution | holds | PropProgress.v |
| C96 | Stored history is immutable | `Consensus` over `Storage` | invariant over all extensions of a history: the records up to the latest number are those of the prefix; refutations for every stored epoch and by a concrete history | false of the code in stated cases; exact/true part proved | ImmutExamples.v, PropImmut.v |
| C97 | Votes and proofs are authenticated | `ConsCrypto` | equivalence for every byte string and signature scheme (a parameter); refutations for every input | false of the code in stated cases; exact/true part proved | PropConsCrypto.v |
| C98 | The header of a proposal sums up the epoch before it | `Consensus` over `Storage` and `Executor` | while the latest epoch stays, status and receipts stay (induction over the calls); outcomes of commit and proposal; refutations for every restart and every history | false of the code in stated cases; exact/true part proved | PropHeader.v |
| C99 | A transfer submitted to one node is carried out on the others | two `Consensus` nodes, `Api`, `Mempool`, `ConsMsg` | composition of C29 (each node), C28/C66 (the message), C91 (agreement before and after) | holds | PropNodes.v |
| C100 | A transaction is carried out at most once | `Mempool`, `Consensus`, `Executor`, `Storage` together | invariant over histories (pooled implies not stored and not under commit); C29 for the second execution; pool unchanged by synchronisation | false of the code in stated cases; exact/true part proved | PropOnce.v |
| C101 | Only the owner spends | `Mempool`, `Consensus`, `Executor` together | invariant over histories: pooled, fetched and being-committed transactions are signed; C11 for the balances; C29 for the refutation | false of the code in stated cases; exact/true part proved | PropOwn.v |
| C102 | Only transactions of the chain are executed, and only in time | `Mempool`, `Consensus`, `Storage`, `Executor` together | invariants over histories: the latest epoch is one handed over (LatestFacts), pooled, fetched and being-committed transactions passed the check (C101); C35, C60, C29 | false of the code in stated cases; exact/true part proved | PropChain.v |
| C103 | Network trouble is held against the address or peer it is about | `Keeper`, `PeerManager` | case analysis per kind of report through report-then-manage; frame lemmas for every other peer (PropBlame.v) | holds | PropBlame.v |
| C104 | The state trie is a store of maps, and a root identifies its map | `Mpt` | canonical trees (one per map); nodes in memory and database denote a tree; encoding read back; simulation of histories by finite maps | holds | PropTrie.v, PropTrieNode.v |
| C105 | Executed state lives in one database of bytes, and comes out of it unchanged | `DbExec` | relation between typed adapters over maps and encoded ones over nodes, kept by every contract function; the database only grows and holds nothing but nodes of tries of the history | holds | PropDb.v |
| C106 | A node's states live in, and survive in, the bytes of its database | `NodeDbSpec` over `Consensus`, `DbExec` | simulation event by event between the node on maps and the uses of the byte database, on top of C105; an invariant gives the roots of a node that does not synchronise | holds | PropNodeDb.v |
| C107 | Encodings are the published formats | `FixedCodec`, `Wire`, `Rlp`, `Proto` | relational specification of both standards and the field tables, shown to determine the bytes; structural induction over values | holds | PropFormat.v |
| C108 | Messages between nodes, the file of peers and the database have a fixed layout | `Bincode`, `ConsMsg`, `NetMsg`, `PeerFile`, `Storage` | relational specification of the layouts, shown to determine the bytes (lists by induction); database by induction over histories of saves | holds | PropMsgFormat.v |
| C109 | The money of the chain lies on the disk, and adds up there | `DbExec`, `NodeDbSpec` over `Consensus`, `LedgerSpec` | opening a root in the bytes related to opening it in the maps (simulation of C106), then the ledger invariant of C90 and the block theorem of C29 | holds | PropDiskLedger.v |
| C110 | A node catches up from another over the wire, and gossip arrives | `TwoNodes` over `NetMsg`, `Wire`, `Consensus` | each message and each call with its answer computed over the bytes (C73, C82, C66), then C89 and C28 | holds | PropTwoNodes.v, PropWireGossip.v |
| C111 | A synchronisation that gets no answer waits for ever, and one message brings a node there | `TwoNodes` | invariant: the waiting entry of the rpc map and the busy state are kept by every event that is not the answer | holds | PropSilentPeer.v |
| C112 | What the API answers about balances stays, and adds up block by block | `Api` over `Consensus` | the trie database only grows along a history (BalanceFacts); epochs stay (C96); the header root opens the same accounts; then C29 | holds | PropBalance.v, PropDiskBalance.v |
| C113 | What a node answers about balances depends on the state root alone | `Api` over `Consensus` | every trie in the database of a node lies under its own root (LedgerRun.db_history); two such databases agree on the roots both have; every root in the database opens (PropZero) | holds | PropAgree.v, PropZero.v |

## 3. Trusted base

* Coq's kernel, including its bytecode evaluator (`vm_compute` is used in
  examples and refutations). No native compilation, no plugins beyond those of
  the standard library and std++.
* `Print Assumptions` under every property theorem prints "Closed under the
  global context": no theorem depends on any axiom, of the standard library or
  otherwise. Loading std++ loads Coq's ssreflect plugin files, whose module
  `ssrunder` contains the `Under_rel` declarations; they appear in
  whole-library listings (`coqchk -o`), never under a theorem.
* My reading of /repo, and of the crates it calls, none of which is in /repo:
  * rlp 0.4 (`Rlp.v`): byte level, without the offset cache of `Rlp::at`;
    `data()` works on lists, `decode_list` stops at a malformed item, integers
    reject leading zeros.
  * prost 0.5 (`Proto.v`): varints, wire types, unknown fields skipped, groups
    rejected; one error value for all decode errors.
  * num-bigint (zero is the byte 0), hex, bincode (`Bincode.v`, the two
    overlord types that are stored), byteorder.
  * cita_trie: in `Executor.v` a finite map with a root function and a database
    that never forgets (`light = false`); `Mpt.v` writes out the crate's
    algorithm and C104 proves that it is such a store (published Ethereum roots
    are recomputed in `MptExamples.v`). With `light = true` the crate deletes
    the nodes a commit replaces, so old roots stop being readable: not modelled.
  * static_merkle_tree: root as a function of the leaves (`Merkle.v`).
  * crossbeam `ArrayQueue`: a bounded FIFO; `chashmap`-like `Map`: one step per
    bucket access; atomics are `SeqCst` and interleave.
  * futures channels: bounded FIFO; `channel(1)` holds two messages.
  * overlord: it calls `get_epoch`, `check_epoch`, `commit` with any arguments;
    `Node`s are ordered by address (C65).
  * tentacle: an oracle answering commands, and a source of arbitrary events;
    `PublicKey::peer_id` is a parameter. multiaddr: a list of components.
  * snappy, secp256k1: parameters (C110 assumes that decompressing what was
    compressed gives it back). Keccak-256 is a parameter of every theorem;
    `Keccak.v` implements it only for examples, checked against a test vector
    of /repo. The longer example histories (`ConsExamples.v` and those built on
    it, so also `C81_balance_after_epoch_refuted`) use a cheap stand-in, `mixd`.
  * Unicode upper-casing (`Api.v`): exact on ASCII and U+FB00; no other
    character upper-cases to hexadecimal digits only.
  * juniper/actix: deliver each scalar argument as the string the client wrote.
* RocksDB: one `put` or one `write(batch)` is atomic and durable; I/O errors
  are not modelled.

## 4. What is modelled, and what is not

| /repo | Model | Not modelled |
|---|---|---|
| protocol/src/types | `Types.v`, `Hex.v` | `Debug`/`Display` texts |
| protocol/src/fixed_codec, core/consensus/src/fixed_types.rs | `Rlp.v`, `FixedCodec.v`, `ConsMsg.v` | |
| protocol/src/codec | `Proto.v`, `Wire.v` | error texts |
| core/executor | `StateAdapter.v`, `Executor.v`, `DbExec.v` | the text of errors (`show` is a parameter); `Executor.v` keeps typed state and decodes it eagerly, which `DbExec.v` does not and C105 justifies; executor value is dropped on `Err` |
| core/executor/src/trie | `Mpt.v` | removal, `light = true` (`remove_batch`), I/O errors |
| core/mempool | `TxMap.v`, `Mempool.v`, `MempoolConc.v`, `AdmitConc.v`, `Broadcaster.v`, `Gossip.v` | more than one packaging thread |
| common/merkle | `Merkle.v`, `MerkleProof.v` | static_merkle_tree (a family of tree shapes) |
| core/storage | `Storage.v` | I/O errors |
| core/consensus | `Merkle.v`, `Bincode.v`, `ConsMsg.v`, `Consensus.v`, `SyncSpec.v` (two nodes) | the agreement protocol itself (overlord), timing; `commit` is two steps and `exec` one; synchronisation one step per epoch |
| core/network/src/{endpoint,rpc_map,message,reactor,outbound} | `Endpoint.v`, `RpcMap.v`, `NetMsg.v` | serde_multi join of futures |
| core/network/src/peer_manager | `PeerManager.v`, `PeerFile.v` | bytes of a key and of an address (external crates); iteration order of sets; one reading of the clocks per event |
| core/network/src/service.rs | `NetService.v`, `NetMsg.v` (registration) | heart beat, logging; the transport's answers are parameters |
| core/network/src/connection (mod.rs, control) | `Connection.v` | tentacle |
| core/network/src/connection/keeper.rs, protocols/ping.rs (reporter), peer_manager/{disc,ident}.rs | `Keeper.v` | tentacle and its ping, discovery and identify protocols are the environment (within `t_ok`); the channel to the manager never closes |
| core/api | `Api.v` | HTTP, JSON, GraphQL parsing; error wording |
| src/main.rs, src/config.rs, core/network/src/config.rs | `Boot.v` (reading the configuration), `Consensus.v` (boot, genesis), `NetMsg.v` (endpoint registration) | argument, TOML and JSON parsing, logging |
| common/{logger,metrics,pubsub,channel,config-parser}, devtools | | not modelled: no logic a property rests on |

Simplifications made inside a file are stated at its head and at the
definition.

## 5. Findings

Places where the code does not do what its user relies on; each is a theorem.

1. Coinbase rewards and the nonce increment of the last transaction never
   reach the committed state (C18, C19); fees are never paid by the sender
   (C25).
2. One transaction from an unknown account, or one Call/Approve transaction,
   makes the whole block fail or panic (C20).
3. All Approve transactions encode to nothing and so have the same hash (C03).
4. The wire codec turns deployments of App/Library contracts into the other
   kind and rejects Native ones: such stored transactions change (C04, C50).
5. Fixed decoding accepts surplus list items (C09) and can panic (C07); wire
   decoding of headers and receipts can panic on a short bloom (C54).
6. The transaction pool: cycle sum wraps (C33), a too large head blocks the
   pool for ever (C45), boundary transactions are proposed again (C46), pulled
   transactions are not authenticated (C40), a failed gossip batch is lost
   (C44), flush/insert races (C42).
7. The pull-transactions endpoint is registered with the wrong handler: every
   non-empty pull fails (C48, C82).
8. The parent of an epoch cannot be found by its hash (C53); the memory adapter
   mixes categories (C51).
9. Restart and synchronisation resume from the pre-state of the latest epoch
   (C62, C69); the header of a proposal is not checked (C64); the first epoch
   is accepted from a peer without its link (C63); a transaction committed but
   not yet stored is accepted again (C67).
10. Peer manager: an address that fails once is never dialled again (C76), a
    close of an old session removes the new one (C74), a peer given up on stays
    connected (C83), slots can be exceeded over several runs (C78).
11. The API answers balances in the state before the epoch asked for, and 0 for
    failures (C81); a ligature is accepted as hexadecimal digits (C80).
12. The hash of a transaction does not say who signed it: nodes committing the
    same epochs can execute different transactions (C91, C92).
13. A node that has caught up with an honest peer names a state root it does not
    hold and never executes anything again (C94).
14. A commit whose execution fails can never be made again, and any client
    without an account can bring that about (C93).
15. Any number of inbound sessions is accepted (C87); a peer can make the node
    charge failures to another peer (C88).
16. A vote with a signature of fewer than 33 bytes panics; aggregated signatures
    and proofs are accepted whatever they say (C97).
17. A peer's epoch with an old number is written over the stored one; receipts of
    committed transactions can change (C96).
18. A restarted node's proposal sums up nothing of the epoch before; the cycles
    used and the logs' bloom in headers are never updated (C98).
19. A crash while the peer file is saved loses all known peers (C57); handlers
    registered, and addresses listened to, too late are accepted and ignored (C58).
20. A configuration error in the validators, bootstrap keys or pool size is noticed
    after the genesis has been stored for good; a node starts on the data of
    another chain and continues it under its own chain id (C59).
21. Accepted transactions are held in memory only and lost at a restart (C49);
    submissions that overlap can fill the pool to four times its size (C27).
22. A Merkle proof that does not tell the sides proves foreign hashes (C26).
23. A deployment of an application or library is refused by every node it is
    gossiped to; one of a native contract makes the transactions gossiped with
    it undeliverable (C28).
24. Nothing stops a proposer from ordering a committed transaction again; it is
    executed again. Taking over an epoch from a peer does not remove its
    transactions from the pool, so an honest node proposes them again (C100).
25. The signatures of transactions pulled for a proposal or with an epoch are
    never checked: a proposer can spend anybody's money (C101).
26. A proposal may name another chain in its header: once it is committed the
    nodes refuse every transaction of their own chain. Transactions of other
    chains and expired ones are executed when proposed (C102).
27. A call to a peer has no timeout, and a closed session does not end it: a peer
    that announces a high epoch number and never answers stops the node from
    committing until it is restarted (C111).

## 6. Testing the theorems

`seeded/LOG.jsonl` records each wrong program tried: the model is edited in a
scratch copy, every file that depends on it is rebuilt, a failing lemma is
temporarily replaced so that the failures behind it are found too, and the
theorems of the `Prop*.v` files that no longer prove are listed. A mutant no
theorem noticed led to a tightened theorem or is explained in the log.
