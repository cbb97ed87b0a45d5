# Formal model of indy-plenum: design

The model is written in Coq 8.16.1 under `rocq/theories` (logical name `Verif`).
Each area of the code has

* `X_Model.v`: executable Gallina functions, one per Python function, each with a
  comment giving the file and lines it models and every simplification;
* `X_Spec.v` (where the property needs vocabulary of its own): a small
  specification that does not mention the model's helpers;
* `X_Proofs.v`: lemmas;
* `X_Props.v`: the theorems named in `MANIFEST.json` (with the lemmas that only
  they use), beside them `Example`s giving concrete non-trivial instances of
  their hypotheses, and `Print Assumptions`.

Conventions of the model

* Python exceptions are values (`option`, or a result type naming the exception).
  A function never returns a normal value where the code raises.
* `while` loops without an evident bound are modelled with fuel that is a
  computed upper bound, and running out of fuel is a distinct failure value; a
  lemma shows the failure value is never returned.
* Python integers are `nat`, `N` or `Z`. Byte strings are `list N`. Dicts are
  association lists or functions, sets are duplicate-free lists.
* Hash functions, clocks, serializers, signature checks and request execution are
  Section variables: each theorem quantifies over all of them. No collision
  resistance is assumed: soundness theorems conclude "claim, or here are two
  different strings, among those actually hashed, with equal digests".
* Where the statement is false of the code we prove the negation on a concrete
  witness in a theorem with suffix `_refuted`, and prove the strongest true
  restriction beside it.

## Plan per property

| id | what is modelled | how it is proved |
|----|------------------|------------------|
| C01 | CompactMerkleTree `_update`, `_push_subtree`, `__push_subtree_hash`, `append`, `extend`, `root_hash`; TreeHasher | invariant: `hashes` are the roots of the binary decomposition of the leaf list; fold = RFC 6962 MTH by strong induction |
| C02 | `_path`, `merkle_tree_hash` over the hash store, `getPath`, `getNodePosition`, verifier loop | store invariant (C06), then induction on the RFC 6962 split |
| C03 | verifier `_calculate_root_hash_from_audit_path` | induction on the split; mismatch yields explicit collision |
| C04 | `_subproof`, `verify_tree_consistency` | induction on the split |
| C05 | `verify_tree_consistency` | as C03, two hashes in parallel |
| C06 | DbHashStore/MemoryHashStore writes | closed form of position, invariant over appends |
| C07 | Ledger.add as a list of storage writes, recovery as a function of the stores | case split over the crash point; missing nodes are not read before the count check |
| C08, C09 | plenum Ledger apply/commit/discard | refinement to a pair of lists |
| C10, C11, C14 | trie over a content addressed store, PruningState | refinement of trie nodes to finite maps; canonical form |
| C12, C13 | proof recording and verification | walk simulation between the two stores |
| C15, C16 | RLP and nibble codecs | induction on items / lists |
| C17 | Quorums, getMaxFailures | arithmetic and inclusion-exclusion on duplicate-free lists |
| C18, C19 | ordering service 3PC core of one replica, `init`/`step` | invariant over all message lists |
| C20 | n replicas, at most f arbitrary, network as a set of sent messages | global invariant, quorum intersection |
| C21-C23 | NewViewBuilder | direct, quorum intersection |
| C24 | checkpoint service `init`/`step` | invariant |
| C25 | Requests and Propagator | invariant over operations |
| C26, C27 | instance change provider, trigger service, view change service | invariant |
| C28 | primary selector | modular arithmetic, termination by pigeonhole |
| C29 | message validator | case analysis against an independent predicate |
| C30 | times in ordering_service.py: choice, check, reverts, catch-up | invariant: last accepted time bounds all audit and applied times; refutations |
| C31 | stashing router | conservation invariant (multiset) |
| C32 | queue timer | invariant: sorted event list |
| C33 | split_messages_on_batches | loop invariant, termination measure |
| C34 | IntervalList, OrderedTracker | refinement to a finite set |
| C35 | OptimisticKVStore | refinement; `remove` is expected to be refuted |
| C36 | signing serializer | expected to be refuted; injectivity on a delimiter-free fragment |
| C37-C39 | catchup services | arithmetic / voting invariants; use C05 for the proof check |
| C40 | LedgerUncommittedTracker | refinement |
| C41 | audit_batch_handler.py, every reader of the audit ledger | invariant over the audit ledger: each transaction is built from the one before |
| C42 | ordering service across a view change (old view PrePrepares, already ordered batches) | invariant of C18 extended by the NewView's batches |
| C43 | ViewChange and NewView replies in message_handlers.py | voting invariant |
| C44 | stabilization across replicas | C24's invariant and quorum intersection |
| C45 | RepeatingTimer on QueueTimer | invariant on pending events |
| C46-C49 | view_change_service.py, view_change_storages.py | invariant over `init`/`step` histories; what the sent messages contain |
| C50 | blacklisting in catchup_rep_service.py | invariant; with honest replies a completeness argument |
| C51 | seeder_service.py | direct, from C04 and the ledger refinement; induction on halving |
| C52 | node_reg_handler.py with list objects as references | invariant against a registry computed from the batches |
| C53 | reloading in node_reg_handler.py over the audit ledger of C41 | walk over back references; runs of equal views |
| C54 | order of durable writes in commit_batch, _add_txn + restore_state, upload_states, updateSeqNoMap; crash after any write | invariant over histories of jobs cut anywhere; refutations by invariants over all later histories |
| C55 | node_leecher_service.py, ledger_leecher_service.py; reports of the per-ledger services are events with arbitrary contents | the visible actions equal a plan read off the events; targets via the audit ledger invariants of C41; refutations |
| C56 | the same model; checks other than of the time are flags of each event | invariant over event lists; refutations with a blocked / late replica for all later events |
| C57 | the pool state as a map from nym to fields, validation and update of NODE requests, histories of batches | invariants preserved by each valid transaction; refutations with concrete requests by arbitrary authors |
| C58 | the config state as maps, the three handlers' validation and update, do_taa_validation, batches applied/committed/rejected; the hash is a parameter; whether the author is a trustee comes with the request | invariant over event lists (states ordered by what they keep); exact characterisation of passing requests; refutations for any hash where possible |
| C59 | the registry in memory (ids, services, addresses), its update at commit and in catch-up, its reading from the ledger; None stands for an exception | simulation relation between pool state and registry, kept by each transaction although commits read the state after the whole batch and catch-up the one before the transaction; both registries meet it, hence are equal |
| C60 | the index payload digest -> ledger, sequence number beside the ledgers, with every event that changes either | invariant over all histories, for any PrePrepares: the index is exactly the written transactions, payloads are unique among written and pending ones |
| C61 | ledgers with committed and uncommitted transactions and states, applied batches; roots stand for the transactions behind them; None is an exception | invariant: per ledger the applied batches form a chain from the committed to the uncommitted root; every event keeps it and none raises |
| C62 | requests with author, endorser and signatures; the node's table of keys, states from the NYM transactions, cache of accepted requests; ed25519 and sha256 are parameters | invariant: every cached digest was authenticated at an earlier moment of the history |
| C63 | NYM transactions applied, committed, reverted, caught up; counter of stewards; restarts with and without the state on disk | invariants: every prefix of the ledger extended by a steward; counter = number of stewards |
| C64 | the table filled by execution, catch-up and start; None is an exception | invariant: table = first key in the ledger |
| C65 | the observer's dictionaries and heap, every message an event | invariants over the history: heap = keys of the dictionary, all above the last applied; senders noted |
| C66 | per node and view: a run of the ordering service, the memory that feeds ViewChange messages, the accepted NewView; faulty nodes contribute anything | induction over views, places below first: no correct node prepares or reports as prepared another batch at a committed place (invariant of runs), quorums intersect, so the NewView selects it |
| C67 | one replica's BLS part as a state machine over the calls of the ordering service; the signature scheme, the keys of pool states and the texts of ledger ids are parameters | invariant over runs: what is collected for a batch not yet ordered was sent by its node and is correct; then counting; acceptance from the assumption on the scheme. The register's cache and the regularity of audit transactions (on the model of C41) separately |
| C68 | the stores of one ledger at a node: the trie of C10 to C14 with its operations, roots by time, multi-signatures; the read handlers as functions on them | the store of times is the list of commits with the roots of their contents, by induction over events; reads and proofs from the invariant of the trie at a known root (all proof nodes are in the store, so no collisions); soundness from C13 |
| C69 | the service of one replica with its requests and the messages and votes it looks at; events for everything that changes them | a request is open iff it is in the dictionary, by induction over events; votes counted are votes received, by induction; the steps of both replicas for the round trip; the step of C67 for the effect of a Commit of another node |
| C70 | a node with one ledger (the model of C07-C09), the index of requests, state roots of audit transactions and the store of multi-signatures; events for all that changes them | the invariant of the ledger and that of the index by induction over events; paths from C02; that any path to the root shows membership by induction over the tree, for any claimed size |
| C71 | one primary in one view: queues of ledgers, numbers, marks of freshness, batches sent and on their way; events for the timer, requests, ordering and catch-up; validation is an oracle | invariant: the batches on their way have consecutive numbers after the last ordered one and are those last sent with them; induction over the loop that fills a batch and over the history; the time of the newest batch on its way bounds the mark of a ledger |
| C72 | the measure of throughput with its four modes, over exact fractions; calls that raise or do not end are outcomes | simulation: the state agrees with the last stretch of empty and busy windows; induction over windows and calls; averages as folds over fractions |
| C73 | the monitor: tracker of requests, throughputs (C72), latencies, medians, verdicts, the check of performance | invariant over histories relating every measure to a function of the history; medians by counting over sorted lists; corollaries on stalled and equal instances |
| C74 | the votes on backup instances, removal by quorum or locally, restoration, adjustment to the pool, the check of lost primaries | invariant: counted votes = votes of the history since the restoration; monotonicity in between; counterexamples by computation |
| C75 | the whole service watching the connection to the primary, with its events in the timer | invariant relating pending checks to deadlines of the history; loop lemma for serving the timer; counterexamples by computation |
| C76 | the handler of freeze requests, the refusal of writes and the audit transactions written meanwhile, over a stack of applied batches of which some are committed | invariant: each snapshot's audit transaction tells of its ledgers; counterexamples by computation |
| C77 | the numbers of backup instances and their record on disk, over restarts, catch-ups, view changes and removals | invariants over histories: all numbers sent in the present view are at most the last one, and all numbers up to it were sent; counterexamples by computation |
| C78 | the validators of all fields, the schemas of all message classes and of requests, what the classes do after the check | induction over the (nested) schemas: accepted if and only if it satisfies a declarative specification; counterexamples by computation |
| C79 | the way of a message from the transport to the inboxes, for clients and nodes, with the handling of wrong ones | case analysis, induction over the nesting of Batches; exact characterization of the messages that stop the node; counterexamples by computation |
| C80 | the queue of messages to clients, with its limits and its two timers | invariant over histories (conservation as permutation, bounds, sortedness), one generic lemma on a walk over a list from which entries are removed; counterexamples by computation |
| C81 | the way of messages from the sockets to the handler: quota, checks, queue, unknown senders | induction over the frames (what is taken is a prefix, with exact stop conditions) and over histories (conservation as permutation, order per sender); counterexamples by computation |
| C82 | remotes, sockets, events, reports, trying again, changes of the pool | invariant over histories (each remote in place with its own socket, no others open), replay of reports, exact characterisation of a loss, induction over turns for trying again; counterexamples |
| C83 | the queue of actions of node and monitor, with actions as programs over the queue | refinement: the trace of asking, cancelling and running defines what is pending; invariant over commands, programs, calls and histories; counterexamples |
| C84 | the file-backed stores: bytes of one file with separators, read in pieces; directory of files | where a cut of the file falls among the records; induction over the reads, for every size; directory: refinement of a list; counterexamples |
| C85 | wallet, Request, authentication, making of the transaction | inversion of the transaction; sorting gives one form of dicts; induction over the signers and over the uses of a request; counterexamples |
| C86 | genesis files as text, the start of a ledger with one | splitting text into lines is a homomorphism at line ends; invariant over histories of starts and crashes; counterexamples |
| C87 | status, connections as told to the instances, the watch for a lost network | invariants over histories; alternation of events per node; counterexamples |
| C88 | recordings as stores of bytes, playing them, start times | refinement of the store to lists per time; walk over increasing keys; invariant of the player; counterexamples |
| C89 | accumulators, the collector, the format of keys and values, loading of reports | commutative monoid of accumulators; keys distinct and ordered by time; permutation of the store; sums over frames |
| C90 | the accumulating monitor and its estimator of rates | refinement of the estimator to counts per window; induction over histories for the alerts; counterexamples |
| C91 | the client's store of requests and answers, its log | lines of a text split back; injective keys; dictionaries of last values; counterexamples |
| C92 | a node's giving messages to its instances | invariant over histories: instances are 0..n-1, their inboxes and the queues for later are a function of the history; a relation of states that differ in what will be thrown away; counterexamples |
| C93 | the two queues of Pre-Prepares that wait | invariants over histories (sorted queue, log of numbers); with a correct primary, that all that came is applied or kept; induction over the queue for completeness; counterexamples |
| C94 | applying again the batches of a NewView: what is held, what is asked for, answers, the messages that wait | invariants over histories (names, numbers in a row, conservation of the waiting messages); induction over the list of batches for completeness; counterexamples |
| C95 | the observable part of a node, sending to chosen nodes | invariants over histories: observers by counting, remotes as a map, conservation of batches; a measure for the emptying of queues; counterexamples |
| C96 | the out boxes of the replicas and the node's serving of them | conservation per instance as an invariant over histories; arithmetic of the shares; a relation between senders before and after a turn; counterexamples |
| C97 | the handler of log files and its compressing processes | an invariant (numbers are consecutive, a process finds its file as it left it) over histories with crash points |
| C98 | the two key files, loading them at the start, NODE transactions of the own node | an invariant over histories; refutations by histories for all pairs of different keys |
| C99 | base58 as the library does it, DID identities, signers and verifiers | positional numerals: digits and value are inverse; then case analysis |
| C100 | the checks of PrePrepares, Prepares and Commits, the codes that lead to a vote, and the vote (with C26's model) | case analysis over the checks in their order; induction over the other nodes' votes |
| C101 | listing a trie and the node under a prefix, over C10's trie | structural induction on the abstract tries of C10 (what is listed, which nodes are recorded), then the state invariant of C10 |
| C102 | the events of the listener, the count, the limit and the restart | invariant: reading the unread events gives the number of clients; refinement of a small machine that knows the clients; induction over the history |
| C103 | the routers, the walk over the live list of handlers with nested sendings, the subscription objects | invariant of the machine with the stack of sendings; induction over its steps; counting subscriptions |
| C104 | the walk over the boxes with an arbitrary reaction of the node to each message; rounding of the shares; removal by place from the end | invariants by induction over the turns of the loop; a measure for the end |
| C105 | directories of key files as dictionaries; NODE transactions and restarts; the keys the authenticator has read; its address | invariants by induction over histories; decimal digits for the address |
| C106 | the walk over the list by place, an oracle for what a prodable does in its turn, the task that loops, shutdown between and during rounds | invariants by induction over calls and turns |
| C107 | the log of granted times, its trimming, the delay function as a variable | refinement to a filter over the granted calls, by induction over the calls |
| C108 | texts as lists of characters, split and join, encoders and decoders as variables | split after join, induction over the fields |
| C109 | the moving average, the bounds and the switch in rationals; the logarithm as a variable; the loop over the plugins | induction over the measurements, linear arithmetic over rationals |
| C110 | texts as lists of characters, decimal numbers of the standard library, the expression as a recursive descent | soundness and completeness of the parser, digits after span |

## What is modelled and what is not

Modelled (file in `/repo`: model). "whole" means every function of the file that
has an effect other than logging and metrics.

| code | model | extent |
|------|-------|--------|
| ledger/tree_hasher.py, compact_merkle_tree.py, merkle_verifier.py, hash_stores/hash_store.py, util.py; plenum/persistence/db_hash_store.py | Merkle_Model, Bits_Model | whole, without caches and the file hash store |
| ledger/ledger.py, plenum/common/ledger.py | Ledger_Model | adding, reading, recovery, uncommitted transactions; each database write is a step |
| state/trie/pruning_trie.py, state/pruning_state.py, state/db/persistent_db.py | Trie_Model | get, set, delete, proofs, commit, revert; without iteration, reference counts and `to_dict` |
| state/util/fast_rlp.py, nibble functions | Rlp_Model | whole |
| storage/optimistic_kv_store.py | OptKV_Model | whole |
| common/serializers/signing_serializer.py, digests of plenum/common/request.py | Signing_Model | without floats |
| plenum/server/quorums.py, getMaxFailures | Quorum_Model | whole |
| plenum/server/consensus/primary_selector.py | Primary_Model | whole |
| plenum/common/prepare_batch.py, batched.py (sending side) | Batch_Model | whole |
| plenum/server/replica_helper.py: IntervalList, OrderedTracker | Interval_Model | whole |
| plenum/common/ledger_uncommitted_tracker.py | Tracker_Model | whole |
| plenum/server/consensus/ordering_service_msg_validator.py | Validator_Model | whole |
| plenum/server/consensus/ordering_service.py | Tpc_Model | 3PC processing, sending, ordering, old view batches, garbage collection; request execution, BLS and time checks are oracles; one view at a time with the NewView's batches as a parameter |
| plenum/server/consensus/checkpoint_service.py, watermark methods of replica.py | Checkpoint_Model | whole |
| plenum/server/consensus/view_change_service.py, view_change_storages.py | NewView_Model, ViewChange_Model | whole |
| plenum/server/consensus/view_change_trigger_service.py, view_change/instance_change_provider.py | Trigger_Model | whole |
| plenum/server/propagator.py and its callers in node.py | Propagate_Model | whole |
| plenum/common/timer.py | Timer_Model | whole |
| plenum/common/stashing_router.py | Stash_Model | whole |
| plenum/server/catchup/catchup_rep_service.py, cons_proof_service.py, seeder_service.py | CatchupReq_, Catchup_, ConsProof_, Seeder_Model | whole |
| plenum/server/batch_handlers/audit_batch_handler.py and readers of the audit ledger | Audit_Model | whole |
| plenum/server/batch_handlers/node_reg_handler.py | NodeReg_Model | whole |
| batch_request_handler.py `_commit`, write_request_manager.py `commit_batch`, `restore_state`, ledgers_bootstrap.py `upload_states`, node.py `commitAndSendReplies`, `postTxnFromCatchupAddedToLedger` | Recover_Model | order of writes to ledgers, states, audit ledger and request index; timestamp, BLS and status stores left out; contents of states abstract |
| node_leecher_service.py, ledger_leecher_service.py | NodeLeecher_Model | whole; timers and logging left out; the per-ledger services seen through their reports; nested calls handled one after the other (each is the caller's last action) |
| ordering_service.py 328-369, 500-640, 814-890, 1076-1117, 1273-1307, 2040-2130, 2186-2209 | PpTime_Model | what concerns times, on the master instance; other checks are flags of each event; nat times |
| `Taa_Model.v` | static_taa_helper.py, base_taa_handler.py, txn_author_agreement_handler.py, txn_author_agreement_aml_handler.py, txn_author_agreement_disable_handler.py, write_request_manager.py do_taa_validation | state proofs, the domain state behind is_trustee, the enumeration of keys by prefix (taken as complete), encodings of the values, context of mechanisms |
| `Pool_Model.v` | node_handler.py, pool_manager.py (onPoolMembershipChange, nodeServicesChanged, nodeHaChanged, _load_nodes_order_from_ledger, calc_node_names_ordered_by_rank), stack_manager.py (parseLedgerForHaAndKeys, connectNewRemote, stackHaChanged), node.py execute_pool_txns, postTxnFromCatchupAddedToLedger | connections and keys of the stacks, BLS proofs of possession, VERKEY changes, ip and port are one value, encodings |
| `Exec_Model.v` | ordering_service.py (_do_dynamic_validation, _apply_pre_prepare, _apply_and_validate_applied_pre_prepare, _validate_applied_pre_prepare, _revert, _consume_req_queue_for_pre_prepare, create_3pc_batch, revert_unordered_batches, valid requests of _order_3pc_key), batch_request_handler.py _commit, ledger.py appendTxns/commitTxns/discardTxns, node.py executeBatch, apply_stashed_reqs, updateSeqNoMap, getReplyFromLedgerForRequest, req_id_to_txn.py | validity of requests is an oracle on the uncommitted states; roots are the lists of transactions behind them; the audit ledger and its root; checks before applying (C30, C42, C56); backup instances |
| `Nym_Model.v` | nym_handler.py, client_authn.py, req_authenticator.py, verifier.py (keys of identifiers), ClientMessageValidator.validate, request.py (author, what is signed, what is hashed), node.py (addNewRole, addGenesisNyms, execute_domain_txns, verifySignature, validateClientMsg) | serialization, ed25519, sha256 (parameters); the threshold of authenticate_multi (not used by nodes); other authenticators than SimpleAuthNr; static validation of operations |
| `Observer_Model.v` | observer_sync_policy_each_batch.py | writing the batch to the ledgers (recorded in a list), the check that the sender is a node |
| `Views_Model.v` | view_change_service.py, ordering_service.py: several views put together from Tpc_Model.v, ViewChange_Model.v, NewView_Model.v | catch-up within or between views, stable checkpoints reached during a view, the fetching of old PrePrepares (they are events) |
| `Bls_Model.v` | bls/bls_bft_replica_plenum.py, bls/bls_key_register_pool_manager.py, bls/bls_store.py, crypto/bls/bls_multi_signature.py, calls in consensus/ordering_service.py | the cryptography (parameters, `scheme_ok`), `as_single_value` is taken to be injective, blsSigs of old Commit format |
| `Read_Model.v` | handler_interfaces/read_request_handler.py, get_txn_author_agreement_handler.py, get_txn_author_agreement_aml_handler.py, storage/state_ts_store.py, storage/kv_store_rocksdb_int_keys.py, batch_handlers/ts_store_batch_handler.py, bls/bls_store.py | decoding of the data in replies, base58 and base64 of roots and proofs, the order of proof nodes, the protocol version test of `make_result` |
| `MsgReq_Model.v` | consensus/message_request/message_req_service.py, consensus/message_request/message_handlers.py (three phases), server/models.py | the choice of the nodes asked and the switches of config.py (what is missing comes as an event), the schema of messages (a reply is null, malformed, or a message) |
| `Reply_Model.v` | node.py (commitAndSendReplies, updateSeqNoMap, getReplyFromLedgerForRequest, getReplyFromLedger, process_query), get_txn_handler.py, persistence/req_id_to_txn.py | one ledger; base58; the fields of the result that repeat the request; the ledger id in the index |
| `Send_Model.v` | ordering_service.py (send_3pc_batch, can_send_3pc_batch, create_3pc_batch and what they call, revert_unordered_batches, catch-up, ordering of own batches), replica_freshness_checker.py, freshness_monitor_service.py | one view; roots, digests and signatures; removal of old batches at checkpoints; that commits reach a quorum is an event |
| `Tput_Model.v` (spec: `Tput_Spec.v`) | throughput_measurements.py (RevivalSpikeResistantEMAThroughputMeasurement and its bases) | floats (exact fractions, whole numbers as times); fields that are never read |
| `Monitor_Model.v` (spec: `Monitor_Spec.v`) | monitor.py (RequestTimeTracker, Monitor), latency_measurements.py, average_strategies.py, instances.py, node.py checkPerformance | floats; logging, plugins, statistics (totalRequests), the accumulating strategy; the time is read once per call |
| `Backup_Model.v` (spec: `Backup_Spec.v`) | backup_instance_faulty_processor.py, replicas.py add/remove_replica, node.py adjustReplicas, _schedule_replica_removal, _remove_replica_if_primary_lost, primaries_disconnection_times | what a replica does beside its identity and the time its primary was lost; the order of due actions is arbitrary |
| `ConnMon_Model.v` (spec: `ConnMon_Spec.v`) | primary_connection_monitor_service.py | logging and metrics; the cleanup; times are whole numbers; what a vote leads to, but for a primary selected within it |
| `Freeze_Model.v` (spec: `Freeze_Spec.v`) | request_handlers/ledgers_freeze/*.py; write_request_handler.py 34-62, 114-121; audit_batch_handler.py 83-155 through Audit_Model | ledgers and states as lists of batches (C08, C14, C40); the encoding of the record in the state; the reading of frozen ledgers by clients |
| `Number_Model.v` (spec: `Number_Spec.v`) | last_sent_pp_store_helper.py; node.py 235-256, 620-644, 768-777, 1828-1872, 3181-3197; ordering_service.py 670-675, 1022-1042, 1258-1292, 1455-1473, 1832-1866, 2026-2039, 2373; replica.py 385-392; backup_instance_faulty_processor.py 18-26 | watermarks, message logs, damaged contents of the record, changes in the number of instances; which PrePrepares are accepted (C18, C29) |
| `Schema_Model.v` (spec: `Schema_Spec.v`) | common/messages/fields.py, message_base.py 12-109, client_request.py, node_messages.py 26-573 (schemas, `__init__`, `_post_process`, `_validate_message`, ViewChange._asdict), request.py 175-180 | field classes used in no message, plugin fields; the reading of ip addresses and numerals is a parameter; base58.b58decode is modelled by its length |
| `Intake_Model.v` (spec: `Intake_Spec.v`) | stp_zmq/zstack.py 606-646; common/batched.py 161-173; node.py 411-461, 1456-1692, 2624-2655; txn_util.py 59-63; request.py 159-160; node_message_factory.py 40-52; client_authn.py 230-265 (missing signature) | static validation and the verification of given signatures are parameters; the LedgerStatus sent back for a wrong one; logging, metrics; what handlers do with the inboxes (other models) |
| `ClientMsg_Model.v` (spec: `ClientMsg_Spec.v`) | stp_zmq/client_message_provider.py 22-101; stp_core/config.py 52-55 | the socket is an oracle for each attempt; texts of errors, metrics; the log of what left is a ghost |
| `Wire_Model.v` (spec: `Wire_Spec.v`) | stp_zmq/zstack.py 83-84, 479-646, 795-801; stp_core/validators/message_length_validator.py; server/quota_control.py 58-77; node.py 294-306, 1051-1053, 1103, 1118 | messages are number, length, UTF-8 or not, ping or not; a socket is the list of what its reads give; heartbeats, answers to pings, reconnecting; the handler (Intake_Model.v) |
| `Conn_Model.v` (spec: `Conn_Spec.v`) | stp_core/network/keep_in_touch.py; stp_zmq/kit_zstack.py 53-131; stp_zmq/remote.py 54-164; network_interface.py 112-133, 186-195; zstack.py 168-180, 614-619, 651-734, 738-747, 772-793; stack_manager.py 100-210; pool_manager.py 203-325 | pings that fail, pongs sent later, heartbeats and reconnecting because of pings (off as delivered); the verification key comes with the public key |
| `Aq_Model.v` (spec: `Aq_Spec.v`) | server/has_action_queue.py | time is a number and passes by a command; actions are programs of queue commands; logging |
| `File_Model.v` (spec: `File_Spec.v`) | storage/kv_store_file.py, kv_store_single_file.py, binary_file_store.py, chunked_file_store.py | text_file_store.py; msgpack stream reader as the list of records; keys of numbered records are numbers; laziness of iterators |
| `Record_Model.v` (spec: `Record_Spec.v`) | plenum/client/wallet.py:163-238, common/request.py, common/txn_util.py:108-345, server/client_authn.py:84-118, 230-266, client_request.py:212-234 | ideal signatures and hashes (a signature is its signer and what was signed); identifiers are numbers; flat operations; plugin fields; old format |
| `Genesis_Model.v` (spec: `Genesis_Spec.v`) | plenum/common/txn_util.py:39-57, ledger/genesis_txn/, storage/text_file_store.py, store_utils.py, ledger/ledger.py:66-69 | JSON as an oracle; one write per transaction (C07) |
| `Links_Model.v` (spec: `Links_Spec.v`) | plenum/server/node.py:735-750, 919-928, 977-983, 1021-1034, 1070, 1169-1202, plenum/common/motor.py, event_bus.py:15-46, plenum/server/inconsistency_watchers.py | sets as lists; what the subscribers do is not modelled (C75) |
| `Recorder_Model.v` (spec: `Recorder_Spec.v`) | plenum/recorder/recorder.py, combined_recorder.py, replayer.py:119-178 | JSON as an oracle; whole ticks instead of floats; messages and names are numbers |
| `Metrics_Model.v` (spec: `Metrics_Spec.v`) | plenum/common/value_accumulator.py, metrics_collector.py:330-446, metrics_stats.py | whole numbers instead of floats (no rounding of sums or times); names are numbers; no averages, no text |
| `AccMon_Model.v` (spec: `AccMon_Spec.v`) | plenum/common/monitor_strategies.py:44-111, moving_average.py | whole ticks and rationals instead of floats; instances are numbers; no logging |
| `ClientStore_Model.v` (spec: `ClientStore_Spec.v`) | plenum/persistence/client_req_rep_store_file.py, client_req_rep_store.py:65-71, client_txn_log.py, storage/directory_store.py | files are texts by key; requests and results are the texts they are serialized to; no translation of line ends |
| `Route_Model.v` (spec: `Route_Spec.v`) | plenum/server/node.py:1260-1299, 1383-1399, 1428-1443, 3229-3243, 749-762, plenum/server/replicas.py:32-62, 104-112, plenum/server/backup_instance_faulty_processor.py:18-27 | an instance is what it was handed; instance numbers are whole; messages are a kind, an instance, a sender and a body |
| `Early_Model.v` (spec: `Early_Spec.v`) | plenum/server/consensus/ordering_service.py:501-644, 818-866, 946-960, 1120-1136, 1885-1926, plenum/server/propagator.py:187-188 | one view, master instance, not the primary; checks of digest, sender and time passed; applying a batch is an oracle; ordering is an event |
| `Reapply_Model.v` (spec: `Reapply_Spec.v`) | plenum/server/consensus/ordering_service.py:501-644, 678-702, 818-890, 1076-1096, 1130-1136, 1273-1287, 1910-1926, 2375-2457, plenum/server/consensus/ordering_service_msg_validator.py:101-150, plenum/server/consensus/utils.py:18-20 | not the primary; no water marks; requests are known; times supported by Prepares left out; applying a batch is an oracle |
| `Observable_Model.v` (spec: `Observable_Spec.v`) | plenum/server/observer/observable.py, observable_sync_policy.py, observable_sync_policy_each_batch.py (whole), plenum/server/router.py:92-105, plenum/server/node.py:1125-1157, 2703-2740, 2968-2992, 3100-3110 | contents of the messages left out; the out boxes of remotes are in Batch_Model |
| `Outbox_Model.v` (spec: `Outbox_Spec.v`) | plenum/server/replicas.py:114-139, plenum/server/replica.py:558-573, 598-620, plenum/server/node.py:1260-1275, 1316-1345, 2150-2158, 2231-2267, 2598-2606 | handling a message puts no new ones in the out boxes and changes no instances; contents of messages left out |
| `Rotate_Model.v` (spec: `Rotate_Spec.v`) | stp_core/common/logging/CompressingFileHandler.py (whole) | with `emit` and `shouldRollover` of the standard library; bytes and characters are the same; a record is written at once; names of other files do not match the pattern; old files are found and removed at once |
| `Signer_Model.v` (spec: `Signer_Spec.v`) | crypto/bls/bls_key_manager.py, plenum/bls/bls_key_manager_file.py, crypto/bls/bls_factory.py:20-83, plenum/bls/bls_crypto_factory.py:28-31, plenum/server/node.py:884-908, plenum/server/pool_manager.py:160-203, 284-338 (own node) | strings and keys are numbers; the functions of the ursa library are parameters (reading what was written gives the key); a signature of a secret key verifies under its public key only; an error raised ends the node; the ledger is the node's own copy |
| `Did_Model.v` (spec: `Did_Spec.v`) | plenum/common/signer_did.py:14-109, plenum/common/verifier.py:24-52, plenum/common/util.py:326-331, stp_core/crypto/nacl_wrappers.py:212-230, the base58 library | the making of keys from seeds and signatures are not modelled; errors are None; newer releases of base58 also drop white space at the end of what is read |
| `Suspect_Model.v` (spec: `Suspect_Spec.v`) | plenum/server/consensus/ordering_service.py:222-323, 440-490, 499-643, 809-866, 1054-1066, plenum/server/replica.py:640-644, 676-679, plenum/server/node.py:2854-2905, plenum/server/suspicion_codes.py | what the replica finds when it compares a message with its state (time, requests, roots, signatures, results) is given as arbitrary facts; the digest is an arbitrary function |
| `Listing_Model.v` (spec: `Listing_Spec.v`) | state/trie/pruning_trie.py:409-458, 892-943, 1052-1098, 1173-1178, state/pruning_state.py:79-82, 107-110, 134-136 | keys of the intermediate dict are lists of nibbles instead of decimal strings joined by + |
| `ClientLimit_Model.v` (spec: `ClientLimit_Spec.v`) | plenum/common/stacks.py:31-136, stp_zmq/zstack.py:343-440, 1036-1046 | zmq: a listener reports each client that comes or goes once and in order, and a closed listener loses its clients and its unread events; times and random numbers are arbitrary |
| `Bus_Model.v` (spec: `Bus_Spec.v`) | plenum/common/router.py, plenum/common/event_bus.py:6-8, 29-33 | handlers are an arbitrary function of the past of the bus, the handler and the message; they do not catch exceptions of what they send; sending on one bus at a time |
| `Drain_Model.v` (spec: `Drain_Spec.v`) | plenum/server/replicas.py:114-138, plenum/server/node.py:1316-1344, plenum/server/replica.py:534-549, 598-619 | unlike C96: the node may put messages into any box while it handles one; the set of replicas does not change during a round; the share is computed exactly (a float in Python) |
| `Keys_Model.v` (spec: `Keys_Spec.v`) | plenum/common/stack_manager.py:23-126, 176-194, 208-224, plenum/server/pool_manager.py:128-142, 160-215, 263-328, stp_zmq/zstack.py:206-219, 322-330, 347-360, stp_zmq/authenticator.py:14-31 | conversion of keys a section variable; no abbreviated keys; no write errors; that libzmq asks `inproc://zeromq.zap.01` and lets everybody in when nothing is bound there is taken from ZeroMQ RFC 27 and is part of the trusted base of `C105_authenticator_*` |
| `Looper_Model.v` (spec: `Looper_Spec.v`) | stp_core/loop/looper.py:64-319 | one event loop; turns run to their end; no sleeps, signals only as calls of handleSignal; Looper.run of coroutines not modelled |
| `Throttle_Model.v` (spec: `Throttle_Spec.v`) | plenum/common/throttler.py:9-70 | integer times; the checks of the constructor are left out |
| `Compact_Model.v` (spec: `Compact_Spec.v`) | common/serializers/compact_serializer.py:7-78 | nested dictionaries as dictionaries over paths (no field's path is the beginning of another's); texts and bytes not told apart |
| `Spike_Model.v` (the statements use rational arithmetic only, no separate specification) | plenum/server/notifier_plugin_manager.py:54-117, 137-146 | rationals for floats; logarithm a section variable; missing keys and message texts left out |
| `Version_Model.v` (spec: `Version_Spec.v`) | common/version.py:145-217, 220-314, 317-351 | only the fallback parser; comparison of versions not modelled (the fallback refuses it) |

Not modelled: network transport and cryptography (ZMQ, CurveZMQ, Ed25519, BLS),
RocksDB/LevelDB internals, JSON/MsgPack, the asyncio loop, logging, metrics,
command line tools, the client, the monitor, plugins, field validation of
messages, and the glue of node.py and replica.py except for the functions named
in the comments of the models.

## Trusted base

* Coq 8.16.1's kernel (and its `vm_compute`; `coqchk` rechecks without it).
* `Print Assumptions` reports "Closed under the global context" for every theorem
  named in `MANIFEST.json`: no axiom, of the standard library or otherwise, is
  used. Hash functions, serializers, clocks, handlers and so on are universally
  quantified in the theorems, and what is assumed of them (for instance that
  deserializing a serialized transaction gives it back) is a hypothesis in the
  statement.
* The reading of the Python source that the comments of the models document:
  each definition cites file and lines and names its simplifications. The main
  ones: Python integers are unbounded naturals where the code uses naturals only;
  dicts keep insertion order; one call runs to completion before the next, as in
  the single-threaded event loop; disk writes of one database call are atomic,
  several calls are not (C07, C10).

## Findings

Each is a theorem with suffix `_refuted` (or is named in a comment of the model).

Ledger and state
* C07: a crash between `nodesDb.reset` and `leavesDb.reset` during recovery leaves a
  ledger of four or more transactions that cannot start any more.
* C08/C09: `add` while transactions are uncommitted leaves a stale uncommitted root and
  gives two transactions one sequence number; `commitTxns` of more than is
  uncommitted reports a range that does not exist; `appendTxns([])` leaves a stale
  uncommitted tree.
* C05: `verify_tree_consistency` accepts anything for old size 0 and ignores trailing
  proof nodes; `consistency_proof(0, n)` never returns.
* C14: a root hash of 32 ASCII hex digits is taken for hex when committed.
* C15: the decoder accepts encodings the encoder never produces.
* C35: `OptimisticKVStore.remove` keeps exactly what it should remove.
* C36: different requests can have the same signing serialization, so the same digest.

Consensus
* C19/C20: ordering needs only n-f Commits; a Commit names no digest; an equivocating
  primary makes two correct nodes order different batches (4 nodes).
* C21/C48: a NewView is accepted without checking that it lists n-f ViewChanges of
  distinct nodes.
* C22/C48: the batch list computed from the same ViewChanges depends on their order, so a
  replica may refuse a correct primary's NewView.
* C24: after a catch-up the master's low watermark is the last ordered batch instead of
  the stable checkpoint, and can go back. Checkpoint senders need not be validators.
* C26: stored votes are compared with the clock of another process run.
* C27: the view number can decrease after a catch-up; `waiting_for_new_view` survives a
  catch-up.
* C28: repeated validator names make primary selection loop for ever.
* C42: for already ordered batches a PrePrepare of any sender is accepted.
* C46: ViewChanges are counted by message, not by sender.
* C47/C48: a relayed identical NewView blocks the acceptance of the primary's own and
  makes the primary raise AttributeError.
* C45: a RepeatingTimer stopped in its own callback and restarted fires twice as often.
* C31: an exception in a handler loses the messages being unstashed.
* C33: one oversize message drops everything queued for that peer.

Catch-up
* C38: a reply with a key such as "07" lets one node add a transaction nobody agreed on.
* C37: transactions beyond the target stop the repeated requests; with no eligible node at
  the start nothing is requested and no timer is left.
* C39: roots of statuses are never compared; the retry is scheduled once only; a node with an
  empty ledger can stay stuck among correct nodes.
* C50: honest nodes can be blacklisted for another node's transactions.
* C51: proofs from position 0 differ between correct nodes, and are not served on request.

Ledgers of ledgers
* C41: the audit transaction depends on when batches are committed (frozen ledgers are
  read from committed state); freezing right after a change drops the ledger's entry; a
  ledger registered later with genesis transactions has a size but no root.
* C52: after a reject, two applied batches share one registry list; a validator change
  that is itself rejected can become committed.
* C53: reloading mistakes the view when primaries repeat, and the initial validators when
  the first batch changes them.
* C54: a crash between adding a transaction to a ledger and committing its state (in a
  commit or in a catch-up) leaves the state without that transaction for ever: a start
  creates a state only if it is empty, and catch-up applies only transactions it adds. The
  same happens after a crash inside the first creation of a state. A crash before the index
  is written makes the request unknown for ever.
* C55: a node stopped and started in the same process during a catch-up continues after the
  ledger it was at, skips the ledgers before it and still reports completion. A ledger whose
  size agrees with the audit ledger is not compared with the recorded root. One ledger
  without a root and of another size makes the node drop the targets of all ledgers.
* C30: the start of a catch-up resets the last time to that of the last committed batch, so a
  primary may date its next batch before one it has sent. The time of caught up batches is
  not noted. A new primary does not note the time of the batches it orders again, so with a
  clock slightly behind it dates its first batch before them, and all replicas refuse it.
* C56: a PrePrepare for a number already ordered is accepted from any sender without checks
  and sets the last accepted time, so one such message with a far future time makes a
  replica refuse every later batch. Waiting Prepares are counted without looking at the
  sender, nor is their time compared with the PrePrepare's. The reception time of a
  PrePrepare is kept for ever: one seen too late is never accepted.
* C58: the digest of an agreement is the hash of version and text written after each other, with
  nothing between. Version `1` with text `2x` and version `12` with text `x` have the same digest; the
  second is recorded in place of the first, so that version `1` then shows another text
  (`C58_text_changed_refuted`, for any hash).
* C58: TXN_AUTHOR_AGREEMENT_DISABLE is not in the list of types whose author must be a trustee, so any
  client may disable the agreements (`C58_anyone_disables_refuted`).
* C58: do_taa_validation looks for agreements in the uncommitted state and for mechanisms in the committed
  one. Two nodes that have applied the same batches give different verdicts, i.e. disagree on which
  requests of a batch are valid (`C58_agree_refuted`); with nothing committed yet TaaAmlNotSetError is
  raised, which nobody catches when a PrePrepare is processed (`C58_no_mechanisms_refuted`).
* C58: an update of an agreement without retirement date (or with 0) takes its retirement back
  (`C58_retired_refuted`).
* C57, C58: a request that comes with a PROPAGATE is not validated statically (processPropagate only checks
  signature and schema), so with the help of one faulty node an author gets written what clients may not
  send: mechanisms without any mechanism, after which no acceptance passes (`C58_static_refuted`), dates
  beyond the limit, BLS keys without proof of possession.
* C57: NODE data may hold unknown fields (the schema is not strict), and update_state merges them into
  the stored dictionary: a field `identifier` replaces the owner of the node, after which one steward owns
  two nodes (`C57_owner_refuted`).
* C57: NodeHandler.authorize does nothing and the steward check is not called: anybody may add a node, or
  move or demote anybody's (`C57_anyone_refuted`, `C57_demoted_refuted`). Node addresses are compared with
  node addresses only, and BLS keys with nothing (`C57_shared_refuted`).
* C59: a node added without `services` is recorded by the running pool manager with an empty list, but is
  left out when services are loaded from the ledger. After a restart it counts as never added, and the
  transaction making it a validator (without addresses) raises KeyError in addNewNodeAndConnect while the
  ordered batch is executed (`C59_restart_refuted`).
* C59: in a catch-up the registry is told of a transaction before the pool state has it, at a commit after
  the state has the whole batch. The proof shows that both are harmless for the registry.
* C60: updateSeqNoMap stores nothing for a batch if the number of any request in it is missing or 0, and
  request number 0 passes the schema. A client cannot send it (validateClientMsg asks for a true value), but
  a faulty node can bring a signed one in with a PROPAGATE. The other requests of the batch are then reported as not written and
  are written a second time (`C60_zero_refuted`). A node that got the same transactions by catch-up has
  indexed them one by one and refuses the batch the others accept (`C60_disagree_refuted`).
* C61: nobody checks that the requests of a PrePrepare belong to its ledger. A faulty primary gets such a
  batch ordered; the transaction it leaves in the other ledger makes commit_batch raise on every node at
  the next batch of that ledger, even after a view change (`C61_mixed_refuted`). With wrong roots the
  refusal itself raises LogicError (`C61_mixed_rejected_refuted`).
* C61: a PrePrepare with sub_seq_no other than 0, or not final, is refused after it was applied but not
  reverted, and is not among the batches reverted later (`C61_not_final_refuted`).
* C61: of `discarded` only the length is compared with the node's own result. A repeated index makes
  executing the batch raise (`C61_discarded_refuted`); other indices make the node report other requests
  as ordered than it writes (`C61_swapped_refuted`).
* C25, C61: _non_finalised_reqs asks only whether a request is known, so a PrePrepare may order a request
  for which a single PROPAGATE arrived.
* C62: getVerkey gives for an unknown identifier the key in the request, whoever's signature is checked. The
  author of a NYM request about themselves can name any unknown identifier as endorser and sign for it
  (`C62_endorser_refuted`, for every unknown endorser).
* C62: a request once authenticated is accepted again after its author's key was replaced, until it is
  cleaned from the cache (`C62_stale_refuted`).
* C63: NymHandler counts stewards when a batch is applied and does not count back when it is reverted
  (`C63_reject_refuted`, `C63_blocked_refuted`), and counts from zero after a restart that finds the state on
  disk: nodes with the same ledger then disagree on a batch (`C63_restart_refuted`).
* C63: a NYM request without role sets the role to null, so replacing a key takes the role away, and at the
  threshold a steward cannot name their role either (`C63_role_lost_refuted`). Stewards may write any
  identity: replace anybody's key, make themselves trustee (`C63_any_key_refuted`).
* C64: addNewRole keeps the first key of an identity. After a replacement, old signatures pass and new ones
  do not, also after a restart (`C64_rotation_refuted`).
* C64: addNewRole makes a verifier of the key in the transaction although a missing key means no change. A
  valid change of role without key for a 16-byte identifier raises on every node while the batch is executed,
  after it was written, then at catch-up and at start (`C64_no_key_refuted`).
* C65: the batches kept for later are tested for a quorum of equal ones, but the first one noted is applied,
  whoever sent it (observer_sync_policy_each_batch.py:155-169). One faulty node gets its own transactions
  written to an observer's ledger (`C65_forged_refuted`).
* C65: the heap of numbers and the dictionary are emptied separately (lines 134-141). A number inside a batch
  already applied stays in the heap, the next application pops it in place of its own number, and the
  observer raises KeyError (`C65_exception_refuted`).
* C65: the observer keeps one last number for all ledgers, the numbers count per ledger (node.py:2705-2740):
  batches of a second ledger are dropped (`C65_ledgers_refuted`). Before the first application anything goes
  first, and one low number blocks everything (`C65_gap_refuted`, `C65_blocked_refuted`).
* C66: a fork without any faulty node. The batches of a NewView are sorted by the view in which they were
  prepared before their place (`C22_ascending_refuted`), so a batch prepared again only up to place 1 in view 1
  comes after the batch of place 2 from view 0. The last one listed is taken as the highest. The new primary
  puts batch 2 aside as "not next", applies batch 1, believes to be done and proposes a new batch for place 2
  at once (`primaries_batch_needed`, ordering_service.py:2380ff; replica.py:517-530 sends before the queues of
  put-aside messages are looked at); three correct nodes order it, while one has ordered the other batch in
  view 0 (`C66_refuted`).
* C66: for a place that a replica has ordered, a PrePrepare of anybody is noted among the pre-prepared batches
  without any check (ordering_service.py:826). A faulty node uses this to have its batch supported by f+1
  ViewChange messages and claims it prepared; the next NewView then names it in place of the ordered batch
  (`C66_unchecked_refuted`).
* Seen while reading for C66, outside the model: a node that lacks the checkpoint of the NewView returns from
  `process_new_view_accepted` of the checkpoint service without telling the ordering service;
  `process_old_view_preprepare_reply` compares whole batch identifiers including the view, so that replies from
  nodes that name the batch with another view are skipped.
* **A primary replaces multi-signatures.** `_validate_multi_sig` (bls_bft_replica_plenum.py:211-224) checks neither how many
  participants there are nor that each has a key. A faulty primary puts into a PrePrepare a multi-signature with one
  participant (itself) over a state root that is already stored, with any ledger root and time; every node accepts it and
  overwrites the one of the quorum, and replies to clients with it (`C67_shared_refuted`, `C67_strangers_refuted`).
* **One Commit stops the multi-signatures of a batch.** Ledger ids in `blsSigs` are texts; "01" passes validation as
  ledger 1 but is collected apart, never reaches a quorum, and `_can_calculate_multi_sig` wants a quorum for all
  (`C67_blocked_refuted`).
* **Exceptions.** A PrePrepare of the master without the optional `poolStateRootHash` (`C67_no_pool_root_refuted`), one with a
  multi-signature naming an unknown pool state (`C67_unknown_root_refuted`), and a Commit with `blsSigs` on a backup
  instance (`C67_backup_refuted`) raise in the handlers of every node that gets them.
* **Key changes.** Own signatures are collected unchecked, with the key in use when the Commit is sent; the batch after a
  change of this key is signed before the change is executed. The node then makes a multi-signature that does not verify,
  stores it, and as primary sends a PrePrepare that all others reject as malicious (`C67_key_change_refuted`).
* The store is keyed by state root only: ledgers with equal states share a place (`C67_same_root_refuted`). A lookup in an
  unknown pool state leaves an empty register under its root (`C67_cache_refuted`).
* **A crash loses a time for ever.** The time of a batch is stored by the last batch handler, after ledger, state and audit
  ledger are committed. If the process dies in between, nothing stores it after the restart: every read at that time or
  later (until the next batch) gives the value before the batch, with a valid proof (`C68_lost_refuted`).
* Genesis transactions have no time, so the state they make cannot be read at any time (`C68_genesis_refuted`).
* **A Commit that is asked for comes with the wrong signatures.** The reply to a request for a Commit is the first Commit
  counted for the batch (`ThreePhaseVotes` keeps one message for all voters), usually that of another node. Its BLS
  signatures are those of the other node, so the replica that asked finds them wrong, reports the honest node that replied
  (`Suspicions.CM_BLS_SIG_WRONG`) and drops the Commit (`C69_own_refuted`, `C69_reported_refuted`).
* A request is sent once: if the reply is lost, or the node asked does not have the message yet, the message is not asked for
  again until the request is forgotten (`C69_retry_refuted`).
* **A multi-signature that does not fit the reply.** GET_TXN finds the multi-signature by the newest state root of the ledger.
  When a batch brings an old state back, and no multi-signature with this root was made yet, the reply has the old one, whose
  ledger root is not the root in the reply (`C70_signed_refuted`).
* One request with request id 0 in a batch keeps the whole batch out of the index of requests: none of its requests gets a
  reply when it is sent again (`C70_repeated_refuted`).
* A query that fails static validation is refused and then replied to as well (`C70_refused_refuted`).
* `ledgerSize` in the reply is not signed: with another size the same root accepts a transaction at another place, so that
  clients have to compare the number in the transaction (`C70_number_refuted`, `C70_accepted`).
* **A primary can use a number twice.** When a catch-up starts, batches that are on their way are reverted and the last number
  goes back; if the catch-up brings nothing, the next batch has a number that was already used in the view, with other requests
  (`C71_numbers_refuted`). Others hold the first PrePrepare with this number, so that an honest primary looks malicious.
* The requests of reverted batches are put back youngest batch first (`C71_order_refuted`).
* The time of the last batch is that of any ledger: requests of a ledger that does not fill a batch wait as long as another ledger
  does, for ever on backup instances (`C71_wait_refuted`).
* The limit on batches on their way is checked once in a call that may send one for each ledger (`C71_in_flight_refuted`).
* A reverted freshness batch is not sent again before another interval has passed (`C71_fresh_refuted`).
* The monitor of freshness raises ValueError when no ledger is registered (`C71_monitor`).
* With `min_cnt` 1 the measure of an instance that orders requests in every window never comes back from the revival
  (`C72_one_refuted`): the count of windows is compared for equality after it was already passed.
* The measure is not monotone: ordering one more request, in a window that would have been empty, can make it smaller
  (`C72_more_refuted`), as the levelling after a fade-out then takes more windows.
* A request that a backup orders several times counts as ordered each time, while it is tracked for another instance
  (`C73_inflate_refuted`): only pre-prepares of the master are compared with the ledger, so faulty primaries of backups
  can inflate their throughput with one request and have an honest master replaced.
* A check of performance is skipped when the sum of ordered requests equals that of the last check; after a reset the
  sum starts at 0 and can come back to the old value, so a slow master is not looked at (`C73_skip_refuted`).
* When the primary of an instance was lost is looked up by the position of the instance among those that still run
  (`primaries_disconnection_times` is a list, `_remove_replica_if_primary_lost` indexes it by instance). After a removal an
  instance with a lost primary is not dropped (`C74_position_refuted`) or one with a connected primary is
  (`C74_neighbour_refuted`).
* `adjustReplicas` takes the number of running replicas for the next identifier: with a removed instance every change of
  the pool replaces a running replica by an empty one and leaves the missing one out (`C74_replaced_refuted`), and a
  smaller pool keeps a surplus instance that no restoration removes (`C74_surplus_refuted`).
* For the same reason `setPoolParams` raises a LogicError ("Inconsistent number of replicas and expected primaries") at the
  first batch of a view if a backup other than the last was removed since the view change began (`C74_error_refuted`).
* A vote whose reason is neither "degraded" nor "disconnected" is counted whatever the configured strategies are
  (`C74_reason_refuted`).
* Votes against an instance that went away with a smaller pool are kept and count against the new replica
  (`C74_stale_refuted`).
* A view change names the new primary without telling the watch over the connection (only the accepted new view does).
  Until then the check of the old primary decides: the node votes against a primary it is connected to
  (`C75_innocent_refuted`), or before the tolerated time is over for one it just lost (`C75_early_refuted`).
* `_check_primary_connection` starts the repeating timer after the vote. If the view change completes within the vote,
  with a connected primary, the timer runs on and the next primary that is lost is voted against too early
  (`C75_restarted_refuted`).
* `LedgersFreezeHandler` reads the last committed audit transaction while it applies a batch that is not committed. A
  batch of the ledger still in flight is missing from the record (`C76_stale_refuted`), and two nodes that applied the same
  batches but committed more or fewer of them make different config states of the same PrePrepare
  (`C76_timing_refuted`). So do the nodes that catch up, which read the end of the audit ledger (`C76_replay_refuted`).
* The state root is recorded only if the last committed batch was of that very ledger: the audit transaction has it in
  no other case (`C76_state_root_refuted`); lines 85-88, meant to look it up, take the offset of the ledger root and are
  never reached.
* Before the first batch is committed a request to freeze raises TypeError while its batch is applied: an empty audit
  ledger passes validation, then `get_payload_data(None)` fails (`C76_first_refuted`).
* A batch on a ledger whose freezing is applied but not committed, all requests of which are refused, makes the audit
  ledger lose it for good (`C76_lost_refuted`): `_fill_frozen_ledgers` copies offsets only. And of an empty frozen ledger
  the size is left out by nodes that have committed the freezing (`C76_audit_timing_refuted`).
* `LastSentPpStoreHelper` is to restore the number of the last PrePrepare after a restart, which
  `select_primaries_on_catchup_complete` recognizes by the previous view being 0. That test is wrong both ways. A running
  node in view 1 or later that ends a catch-up erases the record, and after a restart its primaries of backup instances
  send other batches with numbers already used (`C77_reuse_refuted`). A running node in view 0 restores it, and takes
  batches it only sent or received for ordered: it never orders them (`C77_skipped_refuted`).
* While the audit ledger is empty nothing is restored and the record is erased (`C77_empty_refuted`).
* The record has a view but nobody compares it: after a view change the node slept through, its first batch in the new
  view gets the number after the last one of the old view, and the others wait for number 1 (`C77_stale_view_refuted`).
  A lagging node that learns of the new view from a catch-up does so without a restart (`C77_lagging_refuted`).
* An instance that was removed and comes back with a catch-up starts at 1 in the same view (`C77_removed_refuted`).
* Booleans pass as numbers (`C78_bool_refuted`); a SHA-256 digest with a newline at its end passes, as Python's `$`
  matches there (`C78_newline_refuted`).
* The checkpoints of a ViewChange may be anything. If none of them is a dict the message is accepted and then
  `view_change_digest` raises AttributeError in `process_view_change_message`, which nothing catches: one such message
  from any node stops a node in a view change (`C78_view_change_refuted`, `C78_digest_fails` for exactly when). Values
  that are not dicts are dropped silently when others are (`C78_view_change_mixed_refuted`,
  `C78_batches_mixed_refuted`).
* `processReceived` looks for the key "op" outside its `try`: a JSON number or null from a client, or from a node, raises
  TypeError, which stops the event loop (`C79_number_refuted`).
* `handleOneClientMsg` catches everything but calls `handleInvalidClientMsg` outside the `try`, and that takes the message
  for a dict: a list or a string from any client stops the node (`C79_list_refuted`), a dict with a list of signatures too
  (`C79_signatures_refuted`).
* For op = LEDGER_STATUS the handling logs `ex.args[0]`; MissingSignature is raised without args: an unsigned request with
  a field op = LEDGER_STATUS stops the node (`C79_unsigned_refuted`).
* In a Batch of a client a message that does not parse ends the Batch: the following ones are lost
  (`C79_client_batch_refuted`); in one of a node it is skipped (`C79_node_batch`).
* A message to a client that cannot be reached at the moment is overtaken by later ones that the socket takes in the same walk
  (`C80_order_refuted`).
* `transmit_through_listener` answers False for a message that is kept and sent later (`C80_answer_refuted`): a caller that
  sends it again makes the client get it twice.
* When more than PENDING_CLIENT_LIMIT clients are waiting, all messages of the one that has waited longest are thrown away
  (`C80_kept_refuted`).
* `_receiveFromRemotes` unpacks what it reads with `msg, = ...` and catches ZMQ errors only: a faulty node that sends a message
  of two parts stops the nodes connected to it (`C81_two_parts_refuted`).
* `_receiveFromListener` does not count empty frames and frames of more than two parts: as long as a client sends these, one
  call goes on reading, whatever the quota (`C81_uncounted_refuted`).
* Messages of a node that is not known yet are put away while the node catches up; when the sender becomes known its later
  messages are handled first (`C81_order_refuted`). The store for them drops the oldest when full, and a participating node drops
  them at once (`C81_unknown_refuted`).
* With `RETRY_CONNECT = False` (as delivered) `retryDisconnected` does nothing, and `isConnected` goes back to True only when a message
  of the node is handled: in a pool without traffic a short interruption makes each side take the other for lost, for as long as nobody
  sends (`C82_quiet_refuted`, for every history); by C75 nodes then vote against a primary that is there.
* `hasLostConnection` looks only at the events read since the last look: a loss followed by the start of a new attempt counts as lost
  if they are read one by one, and as no loss if they are read together (`C82_polling_refuted`).
* `_connsChanged` drops the other remotes at the address of a node that connects, without closing their sockets, and then fails with
  `RemoteNotFound` if one of them was about to be reported as connected (`C82_same_address_refuted`).
* `_serviceActions` puts actions that are due at the front of the queue one by one, so that those that become due together run in
  the order opposite to that in which they were asked for (`C83_order_refuted`).
* `startRepeating` after `stopRepeating` within one interval leaves the old wrapper alive: the action is from then on run twice per
  interval (`C83_restart_refuted`). An error in a repeated action ends the repetition for good: it stays in `repeatingActions`, so
  starting it again does nothing (`C83_raised_refuted`). `_cancel` of the action does not reach the wrapper (`C83_cancel_refuted`).
* `scheduled` never loses a key; each `partial` is a new key, as in `_schedule(partial(self._remove_replica_if_primary_lost, ..))`
  (`C83_leak_refuted`). An interval of zero makes the call run for ever (`C83_zero_refuted`).
* `BinaryFileStore._lines` keeps `buffer[-len(lines[-1]):]`; when the last piece is empty this is the whole buffer. If a record ends
  exactly at a multiple of 4096 bytes, all records of the buffer are read again, and later ones get other numbers
  (`C84_twice_refuted`: for every such history; `C84_twice_witness`: one record suffices).
* The separator made by `storage/helper.py` is one text of 16 bytes twice; a value that ends with that text loses it, and the next
  record gets it (`C84_half_separator_refuted`). After a torn write the next record is glued to it, and in the mode with keys `get`
  raises for every key (`C84_torn_refuted`, `C84_torn_key_refuted`). The default `storeContentHash=True` raises in every `put` after
  writing part of the record (`C84_hash_refuted`).
* `ChunkedFileStore.get` and ranges open, and so create, files beyond the end (the TODO in the code says so): `size` jumps; after a
  restart new records go into the created file, are not found under their number, and the count of records is not `size`
  (`C84_beyond_refuted`). With this store a client's GET_TXN for a number beyond the end is enough. `iterator(start=0, end=e)`
  numbers records one too low within one file (`C84_zero_refuted`). Iterating with a prefix raises, and an end of keys stops too
  early (`C84_prefix_refuted`, `C84_end_refuted`).
* `Wallet.sign_using_multi_sig(op=...)` makes a request without identifier and signs `signingPayloadState()`, which has the key
  `identifier` (None for the first signer, the earlier signers joined for the next); the nodes check the request without that key.
  No request made so is ever authenticated (`C85_anonymous_refuted`, for all requests and signers); the validator accepts it.
* A TXN_AUTHOR_AGREEMENT request without `ver` is written with payload version "2", exactly like one with `ver` "2"; `ver: null` is
  written like none. The signature cannot be checked from the ledger (`C85_version_refuted`, `C85_null_version_refuted`).
* A signature given alone and the same one given in `signatures` are written alike, but the full digest differs
  (`C85_form_refuted`): the digest in the ledger cannot be recomputed from it. `Request.digest` and `payload_digest` are cached when
  first read and keep their values when the request is signed later (`C85_stale_refuted`).
* The genesis transactions are added one by one, and only if the ledger is empty. If the node crashes in between, no later start adds
  the rest (`C86_crash_refuted`, for every file and crash point); only a catch-up could, for which a node needs the addresses in the
  pool's genesis transactions. A file with a line that cannot be read stops the first start only; the second one runs with the lines
  before it (`C86_bad_line_refuted`).
* `createGenesisTxnFile(reset=False)` numbers the requests of each author from 1 again (`C86_number_refuted`). With a file of one
  character it raises, even with `reset=True` (`C86_one_line_refuted`).
* A backup instance that is made while nodes are connected, because it was restored after a view change or because the pool grew,
  starts with an empty set of connected nodes and is told of none until some connection changes (`C87_new_refuted`, for every history
  and for as long as the connections stay). It asks nobody for missing Prepares and Commits meanwhile.
* A change of the pool renews the numbers but not the status (`C87_pool_refuted`: started with four of seven). `minimumNodes` is 2f+1,
  not n-f: in a pool of five a node is ready with three connected, four being needed (`C87_ready_refuted`). A node alone in its pool
  never becomes ready (`C87_alone_refuted`).
* The watch for a lost network looks at quorums only when a connection changes: after the pool shrank it can stay silent
  (`C87_shrunk_refuted`); it handles losses before gains and so warns when some nodes take the place of others (`C87_swap_refuted`).
* The keys of a recording are times of a clock that counts from the last boot. After a boot what is recorded later comes first in a
  replay (`C88_boot_refuted`).
* `add_start_time` raises if the last run has no stop time: after a crash a node with recording on can never be started again
  (`C88_crash_refuted`). A recording whose first run was not stopped cannot be replayed (`C88_unfinished_refuted`).
* `CombinedRecorder.combine_recorders` appends to what the store of an earlier replay holds, and the entries that only the client's
  stack has cannot be read any more (`C88_again_refuted`).
* The keys of stored metrics are 53 bits of the time and 11 bits of a counter: a clock that stands still keeps at most 2048 entries
  (`C89_tick_refuted`), and times wrap around after 2^53 microseconds (`C89_wrap_refuted`). An accumulator without values cannot be
  stored (`C89_empty_refuted`); the collector never stores one. Values that were not flushed are lost when the node stops
  (`C89_unflushed`).
* `AccumulatingMonitorStrategy.reset` replaces the defaultdict of alerts by a plain dict of the instances there are. An instance that is
  added later makes every `update_time` raise until the next reset (`C90_new_refuted`).
* An instance that is added later has ordered nothing yet and is compared with what the others have ordered since the last reset, so it
  is held to be degraded although it keeps up (`C90_late_refuted`). Alerts survive the removal of an instance (`C90_back_refuted`).
* `ClientReqRepStoreFile` writes answers as lines of text and does not escape them. A node that refuses a request with a reason of two lines,
  the second of which looks like a reply, makes the client's store hold a reply of any other node: the store is the same as if
  that node had replied (`C91_forged_refuted`). The number that `addReply` returns counts such replies.
* `getAllReplies` leaves out rejections if there is any refusal (`C91_rejects_refuted`); `lastReqId` fails or errs for identifiers with
  commas (`C91_comma_refuted`); `ClientTxnLog` joins identifier and request id without a mark, so that one is taken for another
  (`C91_log_refuted`).
* A node keeps messages for instances it does not have yet, but hands over only three-phase messages: checkpoints, message requests and
  the like are kept and then discarded as of unknown type (`C92_other_refuted`; `_dispatch_stashed_msg`). What is kept has no bound, so that
  a peer can fill the memory with messages for instance numbers that will never be used (`C92_bound_refuted`).
* `adjustReplicas` counts instances instead of looking which are there: if the pool grows while an instance is removed as faulty, an
  instance that is there is made anew, losing what it was handed (`C92_overwritten_refuted`).
* A Pre-Prepare that was put aside and then came again in its turn stays in the queue `prePreparesPendingPrevPP` with a number that
  is neither the next nor ordered. As the queue is looked at from its front only, everything after it waits until it is ordered, however often
  the queue is looked at (`C93_blocked_refuted`).
* If as many as CHK_FREQ batches or more are missing before one that comes, none of them is asked for (`C93_far_refuted`).
* C94: `_reapplied_in_new_view` is called when the NewView is processed and when an answer is, but not when the queue of waiting batches is. If an
  earlier batch was missing and a later one was held, the later one is applied from the queue, and the messages in STASH_VIEW_3PC stay there
  (`C94_left_refuted`).
* C94: the id of an answered batch is compared with its view number included, while a batch is looked up without it. A batch that was
  prepared again in a later view is refused if it comes from a node that holds it as it was in an earlier view (`C94_view_refuted`).
* C94: an old Pre-Prepare in an answer is processed as if the primary had sent it. Its id covers neither roots nor what was rejected, so any
  node can make a replica vote against the primary (`C94_blamed_refuted`); for a batch that was ordered not even the digest is checked, and what
  is there is replaced (`C94_forged_refuted`).
* C94: the age of a batch counts also when it is applied again. If a change of views takes longer than ACCEPTABLE_DEVIATION_PREPREPARE_SECS, a batch that was
  prepared but ordered nowhere is refused by all, and each new primary is voted against (`C94_stale_refuted`).
* C95: `sendToNodes` turns names into ids of remotes, and `send` without ids sends to all. So a message for one node (an answer in catch-up, an
  old Pre-Prepare that was asked for) is sent to all nodes if that one is not among the remotes (`C95_all_refuted`).
* C95: the out box of the observable holds a reference to the list of observers. When the last one is removed, batches that wait are sent to
  all nodes (`C95_removed_refuted`). An observer that was added twice has to be removed twice (`C95_twice_refuted`).
* C96: `try_processing_ordered` only logs an Ordered that comes while the node does not take part; the batch is not executed then or later
  (`C96_dropped_refuted`). Starting catch-up empties the queues first, so it needs a change of mode that is not the start of catch-up.
* C96: the limit of a turn is divided by the number of replicas and rounded, a half to the even number, so a turn may take more than the
  limit (`C96_limit_refuted`). `processEscalatedException` raises out of the loop; replicas with a higher number wait (`C96_blocked_refuted`);
  nothing in plenum/server puts an exception there at this commit.
* C97: with a backup count of 1 the file that is being compressed is removed at the next change of files, before the process is waited for
  (`_remove_old_files` comes before `_finish_compression`). So the main process may fail on a file that the other one has just removed.
* C97: a record that is longer than the limit makes a new file even if the current one is empty, so an empty file takes the place of an older one.
* C98: the key is loaded at the start without looking at the ledger. A node restarted after `init_bls_keys` and before the NODE transaction
  signs with a key the others do not know, and they reject its Commits.
* C98: a NODE transaction with a new key for a node that is no validator does not reach `update_bls_key` (the name is not in `nodeReg`).
  When it is a validator again it signs with the old key until it restarts.
* C98: the first NODE transaction of a node that is running is not compared with the saved key either.
* C98: `save_keys` writes the secret key first; if it ends there, `update_bls_key` compares the old public key, finds it right and signs with the new secret key.
* C98: a public key file that does not parse makes `update_bls_key` raise AttributeError (`bls_to_str(None)`); a secret key file that does not parse
  makes each Commit raise.
* C99: a signer whose name is not base58 is made without complaint, but no node can verify what it signs (`DidVerifier` raises).
* C99: `DidIdentity.full_verkey` of an identifier that is a key, without verkey, is None, while nodes use the identifier as the key.
* C99: `nacl_wrappers.Verifier` takes keys that are not 32 bytes long as hexadecimal text, so a key has a second verkey for `DidVerifier`.
* C100: `_can_process_pre_prepare` compares the digest before it looks at the sender, and PPR_DIGEST_WRONG is among the codes for which `reportSuspiciousNode` votes: any single node can have a correct primary voted out, in every view, with one PrePrepare with a wrong digest for the next place.
* C100: a primary whose PrePrepares have a wrong pool state root or a wrong list of primaries is suspected but not voted against (PPR_POOL_STATE_ROOT_HASH_WRONG and PPR_WITH_WRONG_PRIMARIES are not in the list), and PPR_NOT_FINAL is in the list though nothing raises it.
* C101: `Trie.to_dict(node)` takes `node or self.root_node`, and the node of the empty root is the empty string: `get_all_leaves_for_root_hash` of the root of the empty state gives the leaves of the current, uncommitted state. It is used to compute the pool's values at committed roots.
* C101: there is no verifier for a prefix: `verify_state_proof_multi` accepts a listing from which any keys were left out.
* C102: `connected_clients_num` is set to 0 when the stack is made and after its own restart, but not when the stack is stopped and started by the node: the clients from before the stop are counted for ever after, and the limit is found reached with nobody connected.
* C103: `Router._route` walks over the list of handlers itself. A handler that unsubscribes itself while called shifts the list, and the handler subscribed next misses the message. A handler that raises keeps the message from all handlers after it. `Subscription.unsubscribe_all` stops at a subscription that is already gone and keeps its list, so that the rest stay subscribed however often it is called.
* C104 (see C96 for turns without reactions): `Replicas.get_output(limit)` can hand out more than `limit`: the share is rounded and at least 1 (limit 3, two replicas: 4). Without a limit (the looper passes none) the visit to a replica ends only when its box is empty, so one that puts in a message for each taken out keeps the others waiting. `limit` 0 is no limit for `_handle_external_messages`, but 1 per replica for `get_output`; with no replicas a limit raises ZeroDivisionError.
* C105: the keys written at a start are taken from TARGET_NYM of the NODE transactions, never from VERKEY: a key changed by a NODE transaction is on disk until the next restart (or promotion), then the old one is back (`C105_new_key_refuted`). The authenticator reads the key files once, when the stack starts: a validator added later is not among its keys, a demoted one or a former key stays (`C105_loaded_refuted`). Key files are never removed, so a former validator is loaded at every later start (`C105_former_refuted`). The authenticator binds `inproc://zeromq.zap.N` with N in plain decimal, which is never the `inproc://zeromq.zap.01` libzmq asks, so with libzmq's rule for a missing handler everybody who does CURVE is let in whatever keys are loaded (`C105_authenticator_refuted`).
* C106: an exception out of one `prod` ends `runForever`; its task is done, `running` stays true, nobody is given a turn any more (`C106_exception_refuted`). `prodAllOnce` walks over the list itself: a prodable removed in its own turn, or one before the current place, makes the next one miss its turn in that round (`C106_removal_refuted`). `shutdown` awaits the task before `stopall`, so an exception in the last round keeps every prodable from being stopped (`C106_shutdown_refuted`). `removeProdable` does not stop what it removes, and the later shutdown does not either (`C106_removed_refuted`). The constructor does not check names, only `add` does.
* C107: `Throttler.acquire` compares with `<`, so who comes again exactly after the time it was told to wait is refused once more, and told to wait for 0.0 (`C107_wait_refuted`); any time later is granted, for delay functions that do not shrink with the number of actions.
* C108: `CompactSerializer` does not escape its delimiter: a value with `|` in it is cut there and the rest is read as the next field (`C108_delimiter_refuted`). The empty text cannot be told from no value (`C108_empty_refuted`). Missing items are tolerated for plain names only: with a dotted name left over, `items.pop(0)` raises IndexError (`C108_dotted_refuted`).
* C109: with `use_weighted_bounds_coeff` the factor is divided by log10 of the number of measurements; once that exceeds the factor (10^factor measurements) the lower bound lies above the upper one, and every measurement, an unchanged level included, sends a message (`C109_weighted_refuted`). With `min_cnt` 0 the weight of a new value is 2 and the expected value leaves the range of what was measured (`C109_average_refuted`).
* C110: `DigitDotVersion` asks `self._version.dev or ...`, and 0 is false: `1.2.3.dev0` passes as a version with "only dots and digits" (`C110_digit_dot_refuted`). For the same reason `1.2.3.dev0` is written `1.2.3dev0` by the fallback, unlike every other development version. Leading zeroes are accepted.
