{"id": "C01", "title": "Ledger root equals the RFC 6962 Merkle tree hash", "statement": "After any sequence of append calls on an empty Merkle tree, tree_size is the number of appended entries and root_hash is the RFC 6962 Merkle Tree Hash of exactly those entries in order; extend(xs) gives the same root and size as appending xs one by one.", "quantifier": "every sequence of entries, every length, every hash function", "why_tests_cant": "The carry propagation has a distinct path for each bit pattern of the size; tests only reach a few small sizes.", "anchors": ["ledger/compact_merkle_tree.py:CompactMerkleTree.append", "ledger/compact_merkle_tree.py:_push_subtree", "ledger/compact_merkle_tree.py:root_hash", "ledger/compact_merkle_tree.py:extend", "ledger/tree_hasher.py:_hash_full,_hash_fold"]}
{"id": "C02", "title": "Audit paths produced by the ledger verify", "statement": "The audit path returned by add/append, and the one returned by auditProof(seqNo) or merkleInfo(seqNo), is accepted by the client-side inclusion verifier for that entry, its index and the root hash of the corresponding tree size, for every entry of every ledger.", "quantifier": "every ledger content, every index below every size", "why_tests_cant": "Quadratically many (index,size) pairs, unbounded sizes; each takes a different path through stored node positions.", "anchors": ["ledger/compact_merkle_tree.py:inclusion_proof,_path,merkle_tree_hash,append", "ledger/hash_stores/hash_store.py:getPath,getNodePosition", "ledger/merkle_verifier.py:verify_leaf_inclusion", "ledger/ledger.py:auditProof,merkleInfo"]}
{"id": "C03", "title": "Inclusion verification is sound", "statement": "If the inclusion verifier accepts (leaf, index, path, size, root) and root is the Merkle root of some list of that size, then the entry at that index of the list is exactly that leaf, unless two different strings hashed during verification or tree construction have the same digest.", "quantifier": "every adversarially chosen leaf, index, audit path; every list", "why_tests_cant": "The adversary chooses the proof; no finite set of forged proofs settles the absence of others.", "anchors": ["ledger/merkle_verifier.py:verify_leaf_inclusion,verify_leaf_hash_inclusion,_calculate_root_hash_from_audit_path"]}
{"id": "C04", "title": "Consistency proofs produced by the tree verify", "statement": "For all 0 < m <= n <= size, consistency_proof(m, n) is accepted by verify_tree_consistency for the Merkle roots of the first m and the first n entries.", "quantifier": "every ledger content, every pair of sizes", "why_tests_cant": "Quadratically many size pairs, unbounded sizes.", "anchors": ["ledger/compact_merkle_tree.py:consistency_proof,_subproof", "ledger/merkle_verifier.py:verify_tree_consistency"]}
{"id": "C05", "title": "Consistency verification is sound", "statement": "If verify_tree_consistency accepts sizes 0 < m <= n and two roots which are the Merkle roots of lists of m and n entries, then the first list is a prefix of the second, unless two different strings hashed during verification or tree construction have the same digest.", "quantifier": "every adversarially chosen proof, every pair of lists", "why_tests_cant": "The adversary chooses the proof; accepting one forged history lets a catching-up node rewrite the ledger.", "anchors": ["ledger/merkle_verifier.py:verify_tree_consistency"]}
{"id": "C06", "title": "Node positions in the hash store are collision free and dense", "statement": "Appending n entries stores exactly n leaf hashes and exactly get_expected_node_count(n) interior hashes, the k-th stored interior hash is the one the position formula assigns to number k, and reading any position returns the hash of the subtree it denotes.", "quantifier": "every number of appended entries", "why_tests_cant": "The position formula is a recursion on the binary representation; a wrong carry shows only at specific large sizes.", "anchors": ["ledger/hash_stores/hash_store.py:getNodePosition", "ledger/compact_merkle_tree.py:get_expected_node_count,_push_subtree", "plenum/persistence/db_hash_store.py:writeNode,writeLeaf"]}
{"id": "C07", "title": "A ledger restarted after a crash equals its transaction log", "statement": "If the process dies at any write boundary inside Ledger.add, restarting the ledger succeeds and yields size, root hash and hash store equal to those of a tree built from scratch from the persisted transaction log.", "quantifier": "every history of adds and every crash point between two storage writes", "why_tests_cant": "The crash point ranges over every write of an unbounded history; tests kill at one or two hand-picked points.", "anchors": ["ledger/ledger.py:add,recoverTree,recoverTreeFromHashStore,recoverTreeFromTxnLog", "ledger/compact_merkle_tree.py:verify_consistency", "plenum/persistence/db_hash_store.py"]}
{"id": "C08", "title": "Uncommitted transactions: apply, commit and discard behave like a two-part list", "statement": "After any sequence of appendTxns, commitTxns and discardTxns, the committed ledger is a list, the uncommitted part is a list, commit moves the oldest k, discard drops the newest k, uncommitted_root_hash is the Merkle root of committed followed by uncommitted, and committed entries never change.", "quantifier": "every interleaving of the operations with every batch size", "why_tests_cant": "Unbounded interleavings of pipelined batches.", "anchors": ["plenum/common/ledger.py:appendTxns,commitTxns,discardTxns,uncommitted_root_hash,treeWithAppliedTxns"]}
{"id": "C09", "title": "Sequence numbers are contiguous and never reused", "statement": "Transactions get sequence numbers 1,2,3,... in commit order; the number reported for an uncommitted transaction is the one it gets when committed, and getBySeqNo(n) returns exactly the n-th committed transaction.", "quantifier": "every history of adds, applies, commits and discards", "why_tests_cant": "Needs an invariant over every history including discards in between.", "anchors": ["plenum/common/ledger.py:append_txns_metadata,_append_seq_no,get_by_seq_no_uncommitted,commitTxns", "ledger/ledger.py:getBySeqNo,add"]}
{"id": "C10", "title": "State behaves like a key-value map", "statement": "After any sequence of set and remove, get(key) on the uncommitted state returns the value most recently set for exactly that key and not removed since, or nothing.", "quantifier": "every sequence of operations, every keys and values (including keys that are prefixes of each other)", "why_tests_cant": "Trie splitting/merging has many shapes depending on shared key prefixes and encoded node sizes.", "anchors": ["state/pruning_state.py:set,get,remove", "state/trie/pruning_trie.py:_update,_update_kv_node,_delete,_normalize_branch_node,_get"]}
{"id": "C11", "title": "State root is a function of the content only", "statement": "Two states holding the same key-value map have the same root hash whatever operations produced them, so honest nodes that applied, rejected and re-applied batches agree on the root.", "quantifier": "every pair of operation histories ending in the same map", "why_tests_cant": "Quantifies over pairs of histories of any length.", "anchors": ["state/trie/pruning_trie.py:_update,_delete,_normalize_branch_node,root_hash"]}
{"id": "C12", "title": "State proofs are complete", "statement": "generate_state_proof(key) for a present or an absent key is accepted by verify_state_proof against the state's root hash with the stored value (or None).", "quantifier": "every state content and every key", "why_tests_cant": "Depends on trie shape and on which nodes are embedded instead of hashed.", "anchors": ["state/trie/pruning_trie.py:produce_spv_proof,generate_state_proof,verify_spv_proof", "state/pruning_state.py:verify_state_proof"]}
{"id": "C13", "title": "State proofs are sound", "statement": "If verify_state_proof accepts (root, key, value, proof) for arbitrary adversarial proof nodes and root is the root hash of an honest state, then that state maps key to value (or has no such key if value is None), unless a hash collision between a proof node and a stored node is exhibited.", "quantifier": "every adversarially chosen proof, every state", "why_tests_cant": "The adversary chooses the proof nodes.", "anchors": ["state/trie/pruning_trie.py:verify_spv_proof,get_new_trie_with_proof_nodes,spv_grabbing", "state/pruning_state.py:verify_state_proof"]}
{"id": "C14", "title": "Committed state is isolated from uncommitted changes and survives restart", "statement": "get with isCommitted=True and a restarted state see exactly the content at the last commit, whatever sets, removes and reverts happened since; every root ever reached can be read back with get_for_root_hash and reverted to.", "quantifier": "every interleaving of set, remove, commit, revert and restart", "why_tests_cant": "Unbounded interleavings; storage is shared between all versions.", "anchors": ["state/pruning_state.py:commit,revertToHead,get,get_for_root_hash,__init__", "state/db/persistent_db.py"]}
{"id": "C15", "title": "RLP encoding round-trips", "statement": "Decoding the RLP encoding of any nested sequence of byte strings returns it, for the decoder used by the state and for the encoder in the same module, and therefore different items have different encodings.", "quantifier": "every nested item of any depth and length", "why_tests_cant": "Length classes change at 56 bytes and at every power of 256.", "anchors": ["state/util/fast_rlp.py:_encode_optimized,length_prefix,_decode_optimized,consume_length_prefix"]}
{"id": "C16", "title": "Hex-prefix path encoding round-trips", "statement": "unpack_to_nibbles(pack_nibbles(ns)) = ns for every nibble sequence with or without terminator, and nibbles_to_bin inverts bin_to_nibbles.", "quantifier": "every nibble sequence", "why_tests_cant": "Parity and terminator flags interact at every length.", "anchors": ["state/trie/pruning_trie.py:pack_nibbles,unpack_to_nibbles,bin_to_nibbles,nibbles_to_bin,with_terminator,without_terminator"]}
{"id": "C17", "title": "Quorum sizes tolerate f faulty nodes", "statement": "For every pool size n >= 1 with f = getMaxFailures(n): any two sets of nodes of the strong/commit/view-change quorum size share at least one node outside any set of f faulty nodes; any set of the weak/propagate/reply/consistency-proof size contains a non-faulty node; and all n-f non-faulty nodes suffice to reach every quorum.", "quantifier": "every pool size and every choice of faulty nodes and voters", "why_tests_cant": "Unbounded pool sizes; intersection is a statement about all pairs of sets.", "anchors": ["plenum/server/quorums.py:Quorums,Quorum.is_reached", "plenum/common/util.py:getMaxFailures"]}
{"id": "C18", "title": "A replica orders batches in order, once, without gaps", "statement": "In any execution of a replica within a view, the batches it emits as Ordered have pp_seq_no values that increase by exactly one, so none is skipped or ordered twice.", "quantifier": "every arrival order of PrePrepare, Prepare and Commit messages from any senders", "why_tests_cant": "Message interleavings are unbounded.", "anchors": ["plenum/server/consensus/ordering_service.py:_try_order,_can_order,_all_prev_ordered,_order_3pc_key,_process_stashed_out_of_order_commits"]}
{"id": "C19", "title": "A batch is ordered only with full certificates", "statement": "Whenever a replica emits Ordered for a key it has accepted exactly one PrePrepare for that key, has Prepares matching its digest from at least n-f-1 distinct replicas and Commits from at least n-f distinct replicas.", "quantifier": "every message schedule, including duplicates, equivocations and messages from unknown senders", "why_tests_cant": "The adversary chooses the messages and their order.", "anchors": ["plenum/server/consensus/ordering_service.py:process_prepare,process_commit,_has_prepared,_can_commit,_can_order", "plenum/server/models.py:Prepares,Commits"]}
{"id": "C20", "title": "Agreement within a view", "statement": "If at most f of n replicas are Byzantine, no two honest replicas order batches with different digests for the same (view_no, pp_seq_no).", "quantifier": "every pool size, every behaviour of up to f Byzantine replicas, every schedule, loss and duplication of messages", "why_tests_cant": "Quantifies over all distributed executions.", "anchors": ["plenum/server/consensus/ordering_service.py", "plenum/server/models.py", "plenum/server/quorums.py"]}
{"id": "C21", "title": "A view change keeps every batch that may have been ordered", "statement": "If some honest replica had n-f Commits for a batch above the chosen stable checkpoint, then any batch list computed for NewView from ViewChange messages of n-f distinct replicas contains that batch at its position.", "quantifier": "every set of ViewChange messages with at most f from Byzantine replicas", "why_tests_cant": "The ViewChange contents are adversarial for f nodes and the quorum may be any subset.", "anchors": ["plenum/server/consensus/view_change_service.py:NewViewBuilder.calc_batches,calc_checkpoint"]}
{"id": "C22", "title": "NewView batch lists are gap free and unambiguous", "statement": "The batch list computed by every node for NewView starts right after the chosen checkpoint, has consecutive pp_seq_no values with no repetitions, and is the same for every node given the same set of ViewChange messages.", "quantifier": "every collection of ViewChange messages, valid or not", "why_tests_cant": "Adversarial message contents.", "anchors": ["plenum/server/consensus/view_change_service.py:NewViewBuilder.calc_batches,_try_find_batch_for_pp_seq_no"]}
{"id": "C23", "title": "The NewView checkpoint is supported by a quorum", "statement": "calc_checkpoint only returns a checkpoint for which at least n-f ViewChange messages have a stable checkpoint not above it and at least n-f distinct messages contain it (so at least f+1 correct nodes have it), and it returns the highest such checkpoint, or nothing exactly when there is none.", "quantifier": "every collection of ViewChange messages", "why_tests_cant": "Adversarial message contents.", "anchors": ["plenum/server/consensus/view_change_service.py:NewViewBuilder.calc_checkpoint"]}
{"id": "C24", "title": "Stable checkpoint and watermarks only move forward, with a quorum", "statement": "Within a view the stable checkpoint never decreases, moves only to a checkpoint this replica itself made and for which n-f-1 distinct other replicas sent the same digest, low watermark equals the stable checkpoint and high watermark is low plus LOG_SIZE, and own checkpoints kept are never older than the stable one.", "quantifier": "every sequence of Checkpoint messages, own orderings and view changes", "why_tests_cant": "Unbounded message histories from Byzantine senders.", "anchors": ["plenum/server/consensus/checkpoint_service.py:process_checkpoint,_try_to_stabilize,_mark_checkpoint_stable,set_watermarks"]}
{"id": "C25", "title": "A request is forwarded to ordering once and only with f+1 identical propagates", "statement": "A client request is forwarded to the replicas at most once until it is freed, only when at least f+1 distinct nodes propagated a request with the same full digest, and what is forwarded is that digest's request.", "quantifier": "every sequence of propagates, forwards, orderings and executions", "why_tests_cant": "Unbounded schedules from Byzantine senders.", "anchors": ["plenum/server/propagator.py:Requests,Propagator.canForward,forward,tryForwarding,ReqState.req_with_acceptable_quorum"]}
{"id": "C26", "title": "A view change by instance-change votes needs n-f distinct voters", "statement": "A view change triggered by InstanceChange votes starts for view v only if n-f distinct nodes sent, within the voting window, InstanceChange for exactly v, and v is greater than the current view.", "quantifier": "every sequence of votes, repetitions, restarts and time steps", "why_tests_cant": "Unbounded vote histories; votes are persisted and cached.", "anchors": ["plenum/server/consensus/view_change_trigger_service.py:process_instance_change,_try_start_view_change_by_instance_change", "plenum/server/view_change/instance_change_provider.py"]}
{"id": "C27", "title": "View number never decreases", "statement": "Whatever messages arrive, a replica's view number never decreases and a replica never starts a view change to a view it is already in or past.", "quantifier": "every message history", "why_tests_cant": "Adversarial histories.", "anchors": ["plenum/server/consensus/view_change_service.py:process_need_view_change,process_view_change_message,process_new_view_message"]}
{"id": "C28", "title": "Primary selection is total, deterministic and distinct", "statement": "For every view number and validator list of distinct names, selection terminates and yields f+1 pairwise distinct validators, the first being validators[view_no mod n], identical on every node with the same list; over n consecutive views each validator is master primary exactly once.", "quantifier": "every view number and validator list", "why_tests_cant": "Unbounded views and pool sizes; the selection loop has no obvious bound.", "anchors": ["plenum/server/consensus/primary_selector.py:RoundRobinConstantNodesPrimariesSelector,RoundRobinNodeRegPrimariesSelector"]}
{"id": "C29", "title": "Only in-window messages of the current view are processed", "statement": "A PrePrepare, Prepare or Commit is handed to processing only if it is for this instance and view, the node participates, no view change is pending, low_watermark < pp_seq_no <= high_watermark and it is not an already ordered batch of this view; a message from an old view or at or below the low watermark is never stashed.", "quantifier": "every message and every replica state", "why_tests_cant": "All combinations of flags and numbers.", "anchors": ["plenum/server/consensus/ordering_service_msg_validator.py"]}
{"id": "C30", "title": "Batch timestamps of honest primaries never go backwards", "statement": "The ppTime of successive PrePrepares created by a primary never decreases, whatever the local clock does.", "quantifier": "every sequence of clock readings", "why_tests_cant": "Clock may jump arbitrarily.", "anchors": ["plenum/server/consensus/ordering_service.py:_get_utc_epoch_for_preprepare,create_3pc_batch"]}
{"id": "C31", "title": "Stashing loses and duplicates no message while below the limit", "statement": "Every message given to a StashingRouter is at any time in exactly one of: processed, discarded, stashed in exactly one queue, or rejected because that queue was full; unstashing re-offers each stashed message exactly once, in arrival (or key) order.", "quantifier": "every sequence of messages, handler verdicts and unstash calls", "why_tests_cant": "Handler verdicts may change at each retry; unbounded histories.", "anchors": ["plenum/common/stashing_router.py:StashingRouter,UnsortedStash,SortedStash"]}
{"id": "C32", "title": "Timer callbacks fire when due, in time order, and never after cancel", "statement": "service() runs exactly the scheduled callbacks whose time has come, in timestamp order (ties in scheduling order), never one that was cancelled, and leaves the others scheduled.", "quantifier": "every sequence of schedule, cancel and service calls", "why_tests_cant": "Unbounded histories.", "anchors": ["plenum/common/timer.py:QueueTimer"]}
{"id": "C33", "title": "Message batching keeps every message, in order, within the size limit", "statement": "split_messages_on_batches either refuses (when some single message exceeds the limit) or returns batches whose concatenation is exactly the input in order, each non-empty and within the limit; it always terminates.", "quantifier": "every message list, every serializer, every limit", "why_tests_cant": "Sizes depend on serialization; termination must hold for all inputs.", "anchors": ["plenum/common/prepare_batch.py:split_messages_on_batches"]}
{"id": "C34", "title": "The ordered-batch tracker is exactly a set", "statement": "After any sequence of add, membership in IntervalList/OrderedTracker holds for exactly the added numbers, length is the number of distinct added numbers, and intervals stay sorted, disjoint and non adjacent, so two trackers with the same elements compare equal.", "quantifier": "every sequence of additions", "why_tests_cant": "Merging cases depend on the whole history.", "anchors": ["plenum/server/replica_helper.py:IntervalList.add,__contains__,__len__,OrderedTracker"]}
{"id": "C35", "title": "Optimistic key-value store: uncommitted reads see the newest write, commit and reject are exact", "statement": "get returns the most recent uncommitted write if any and else the committed value; committing batches oldest-first persists exactly their writes in order; rejecting the newest batch restores the view before it; remove of an uncommitted key hides that key and no other.", "quantifier": "every interleaving of set, remove, create_batch, commit_batch, reject_batch", "why_tests_cant": "Unbounded interleavings.", "anchors": ["storage/optimistic_kv_store.py:OptimisticKVStore"]}
{"id": "C36", "title": "Signed content is unambiguous", "statement": "Two different requests never serialize to the same bytes for signing or digest computation, so a signature or digest covers one request only.", "quantifier": "every pair of request contents", "why_tests_cant": "All pairs of structured values.", "anchors": ["common/serializers/signing_serializer.py:SigningSerializer.serialize", "plenum/common/request.py:getDigest,getPayloadDigest,signingState"]}
{"id": "C37", "title": "Catchup requests cover exactly the missing range", "statement": "The CatchupReq messages built for a ledger cover every missing sequence number from start to end exactly once, never ask a node for transactions it does not claim to have, and have non-empty ranges. While replies are outstanding, the timer asks again for exactly what is neither in the ledger nor in a received reply.", "quantifier": "every missing range and every assignment of claimed ledger sizes to nodes", "why_tests_cant": "Arithmetic over all sizes and node counts.", "anchors": ["plenum/server/catchup/catchup_rep_service.py:_build_catchup_reqs"]}
{"id": "C38", "title": "Catchup adds only transactions that lead to the agreed root", "statement": "Transactions received in CatchupReps are appended to the ledger only if, together with the already present ones and the supplied consistency proof, they lead to the root hash agreed for the target size; whatever Byzantine nodes send, the final ledger has the agreed root or catchup has not finished.", "quantifier": "every sequence of CatchupReps from Byzantine senders", "why_tests_cant": "Adversarial replies in any order.", "anchors": ["plenum/server/catchup/catchup_rep_service.py:process_catchup_rep,_process_catchup_txns,_has_valid_catchup_replies"]}
{"id": "C39", "title": "A catchup target needs f+1 identical proofs from distinct nodes", "statement": "A ledger starts catching up to a (size, root) target only if f+1 distinct nodes sent the same consistency proof for it; conversely it is declared up to date only with n-f-1 matching ledger statuses from distinct nodes.", "quantifier": "every sequence of LedgerStatus and ConsistencyProof messages", "why_tests_cant": "Adversarial messages; voting sets grow over time.", "anchors": ["plenum/server/catchup/cons_proof_service.py"]}
{"id": "C40", "title": "Batch tracker returns exactly what to revert or commit", "statement": "For any sequence of apply, commit and reject of batches, commit returns the oldest applied batch's roots and the number of transactions it added, reject returns the roots before the newest batch and the number of transactions it added, so that sizes always add up.", "quantifier": "every interleaving of apply, commit and reject", "why_tests_cant": "Unbounded pipelines.", "anchors": ["plenum/common/ledger_uncommitted_tracker.py:LedgerUncommittedTracker"]}
{"id": "C41", "title": "Audit transactions resolve to the right primaries, node registry and ledger roots", "statement": "For every audit ledger built by the audit handler, following the delta stored in an audit transaction reaches an audit transaction holding a full value, and that value equals the value current when the transaction was created.", "quantifier": "every sequence of applied, committed and reverted batches", "why_tests_cant": "Deltas chain over unbounded history.", "anchors": ["plenum/server/batch_handlers/audit_batch_handler.py:_fill_primaries,_fill_node_reg,_fill_ledger_root_hash"]}
{"id": "C42", "title": "A replica votes only for batches proposed by the primary, and remembers its votes", "statement": "Every Prepare a replica sends is for a PrePrepare that the primary of the view sent it, that the NewView listed, or that passed all checks; and every batch it sent a Commit for is reported as prepared in its ViewChange until a stable checkpoint covers it.", "quantifier": "every message schedule within a view, from any senders", "why_tests_cant": "The adversary chooses senders, contents and order.", "anchors": ["plenum/server/consensus/ordering_service.py:process_preprepare,_can_process_pre_prepare,_add_to_pre_prepares,_prepare_batch"]}
{"id": "C44", "title": "Correct nodes agree on stable checkpoints", "statement": "If at most f nodes are faulty, two correct nodes whose checkpoint of the same view and sequence number became stable by votes have the same checkpoint digest (audit ledger root).", "quantifier": "every pool, every event history of every node, every behaviour of at most f faulty nodes", "why_tests_cant": "Byzantine senders may report different digests to different nodes in any order.", "anchors": ["plenum/server/consensus/checkpoint_service.py:_try_to_stabilize_checkpoint,_have_own_checkpoint,_have_quorum_on_received_checkpoint"]}
{"id": "C45", "title": "A repeating timer fires once per interval while started and never while stopped", "statement": "While a RepeatingTimer is started exactly one call of its callback is pending, due one interval after the previous call or the start; while it is stopped its callback is not called and none is pending.", "quantifier": "every sequence of start, stop, schedule, cancel and service calls, also from inside callbacks, and every clock", "why_tests_cant": "Callbacks may start and stop timers themselves; unbounded histories.", "anchors": ["plenum/common/timer.py:RepeatingTimer"]}
{"id": "C43", "title": "A ViewChange taken from others is the one asked for", "statement": "When a replica takes, as node x's ViewChange, a message received in reply to a request, it had asked for x's ViewChange with exactly that message's digest, and the message came from x itself or from at least f+1 different nodes.", "quantifier": "every history of messages, requests and replies, from any senders", "why_tests_cant": "Faulty nodes choose contents, claimed authors and repetitions of replies.", "anchors": ["plenum/server/consensus/message_request/message_handlers.py:ViewChangeHandler", "plenum/server/consensus/message_request/message_req_service.py"]}
{"id": "C46", "title": "A replica joins a later view change only on n-f nodes' word", "statement": "A replica asks for a view change because of ViewChange messages only when it is in no view change itself, the view is higher than its own, and n-f different nodes have sent it a ViewChange for that view.", "quantifier": "every history of messages from any senders", "why_tests_cant": "Repetitions and interleavings are unbounded and chosen by the adversary.", "anchors": ["plenum/server/consensus/view_change_service.py:process_view_change_message,_stashed_vc_msgs"]}
{"id": "C47", "title": "A primary's NewView rests on n-f confirmed ViewChanges and is sent once", "statement": "A primary broadcasts a NewView only while waiting, for its own view, listing exactly the ViewChanges it holds which n-f-1 nodes acknowledged (at least n-f, of different nodes), with the checkpoint and batches computed from them; at most once per view change; and as soon as the computation succeeds and it has the checkpoint itself; it then finishes the view change.", "quantifier": "every history of messages, replies, timeouts, pool changes and catch-ups, from any senders", "why_tests_cant": "The adversary chooses senders, contents and order.", "anchors": ["plenum/server/consensus/view_change_service.py:_send_new_view_if_needed,_finish_view_change", "plenum/server/consensus/view_change_storages.py"]}
{"id": "C48", "title": "A replica finishes a view change only with a NewView it has checked", "statement": "A replica accepts at most one NewView per view change; it is of the view being entered, came from that view's primary or from n-f nodes, lists only ViewChanges the replica holds with those digests, and its checkpoint and batches are those which the listed messages give. A replica that has the primary's NewView and all listed messages accepts it if it checks and votes for the next view otherwise.", "quantifier": "every history of messages, replies, timeouts, pool changes and catch-ups, from any senders", "why_tests_cant": "The adversary chooses senders, contents and order.", "anchors": ["plenum/server/consensus/view_change_service.py:_finish_view_change_if_needed,_finish_view_change", "plenum/server/consensus/view_change_storages.py:NewViewVotesForView"]}
{"id": "C49", "title": "A ViewChange reports everything prepared and preprepared since the stable checkpoint", "statement": "The ViewChange a replica sends names the view it enters, its stable checkpoint, its checkpoints, and for every sequence number reported in an earlier ViewChange or current now and above the stable checkpoint of the start of this view change, the latest prepared batch and every preprepared one.", "quantifier": "every history of view changes and of shared data", "why_tests_cant": "Unbounded number of view changes in a row.", "anchors": ["plenum/server/consensus/view_change_service.py:_build_view_change_msg,_clear_old_batches"]}
{"id": "C50", "title": "Catch-up blacklists senders of bad replies, and only senders", "statement": "During catch-up only nodes that sent a CatchupRep are blacklisted; a node whose reply does not continue the ledger along the agreed transactions is blacklisted and nothing of it is added; a node that answers honestly is never blacklisted.", "quantifier": "every sequence of starts, replies and timer calls, honest or not", "why_tests_cant": "Replies of several nodes are mixed before they are checked, in every possible order and overlap.", "anchors": ["plenum/server/catchup/catchup_rep_service.py:_process_catchup_txns,_has_valid_catchup_replies,_merge_catchup_txns"]}
{"id": "C51", "title": "What a correct node serves to a node catching up is true, and correct nodes agree", "statement": "A node answers a catch-up request for positions a..b up to t of a ledger it has to at least t with exactly its transactions a..b and a consistency proof between its prefixes of lengths b and t, and answers no other request; however often a reply is halved to fit, each piece again carries some of the transactions, all pieces together all of them, each with the right proof. To a status that is behind it answers with a proof from that size to its own, naming the roots of those prefixes, and two correct nodes whose ledgers agree on a range give the same proof for it; to a status not behind it answers nothing (a node) or its own status (a client).", "quantifier": "every ledger content and size, every request, every way of splitting, every pair of correct nodes", "why_tests_cant": "The receiver counts equal proofs and verifies roots; ranges, sizes and splits are unbounded.", "anchors": ["plenum/server/catchup/seeder_service.py", "plenum/server/message_handlers.py:ConsistencyProofHandler,LedgerStatusHandler"]}
{"id": "C52", "title": "The validator registry follows the ordered batches, whatever is rejected in between", "statement": "After any sequence of NODE operations applied, batches applied, rejected (youngest first) and committed (oldest first), the committed registry is that of the committed batches, the uncommitted one that of the applied batches and operations, every applied batch carries the registry after it, the registries at the beginning of the last two views are those after the last batch of the earlier views, the primary of a later view depends only on the batches of the earlier views, and a commit asks for a view change exactly when it changes the number of validators.", "quantifier": "every sequence of operations, views and batches", "why_tests_cant": "Applying, rejecting and committing interleave without bound, and the registries share list objects.", "anchors": ["plenum/server/batch_handlers/node_reg_handler.py:apply_request,post_batch_applied,post_batch_rejected,commit_batch", "plenum/server/consensus/primary_selector.py"]}
{"id": "C53", "title": "A restarted node knows the same validators as one that kept running", "statement": "The registries and the view that a node loads from its ledgers after a restart or a catch-up are those of a node that has executed the same committed batches without interruption.", "quantifier": "every history of committed batches, registries, primaries and views", "why_tests_cant": "The audit ledger is read backwards through references of unbounded length across any number of views.", "anchors": ["plenum/server/batch_handlers/node_reg_handler.py:on_catchup_finished,_load_current_node_reg,_load_last_view_node_reg"]}
{"id": "C54", "title": "After a crash, a restart and a catch-up give back the pool's ledgers and states", "statement": "However often and wherever a node crashes while it commits batches, catches up or starts, one start and one undisturbed catch-up leave it with exactly the pool's ledgers, audit ledger and states, every state being the one its ledger describes, and every transaction ordered by the pool can be found by its request.", "quantifier": "every history of ordered batches, starts and catch-ups, and every crash point between two writes to disk", "why_tests_cant": "Crash points multiply with every write of every job, and a lost write shows only much later.", "anchors": ["plenum/server/batch_handlers/batch_request_handler.py:_commit", "plenum/server/request_managers/write_request_manager.py:commit_batch,restore_state", "plenum/server/ledgers_bootstrap.py:upload_states,_init_state_from_ledger", "plenum/server/node.py:commitAndSendReplies,postTxnFromCatchupAddedToLedger,updateSeqNoMap", "plenum/server/catchup/catchup_rep_service.py:_add_txn"]}
{"id": "C55", "title": "A node catches up its ledgers in order, up to what its audit ledger says, and reports completion only when all are there", "statement": "A catch-up brings up to date, one after the other, (the pool ledger for a starting node,) the audit ledger, the pool ledger, the config ledger and every other ledger that is not frozen; each is started when the one before is reported complete, unexpected reports change nothing, no step raises, and completion is reported exactly when the last is complete. After the audit ledger, every ledger is fetched from the size the node has to the size and the root it had after the last audited batch, from nodes taken to have what the batches they reported contain.", "quantifier": "every set of ledgers, audit ledger content, own ledger content, and every sequence of reports of the per-ledger catch-ups", "why_tests_cant": "Reports interleave arbitrarily with restarts; the audit ledger's roots are references of unbounded length.", "anchors": ["plenum/server/catchup/node_leecher_service.py", "plenum/server/catchup/ledger_leecher_service.py", "plenum/server/node.py:start_catchup"]}
{"id": "C56", "title": "The time of a batch is judged the same way whatever a single faulty node sends", "statement": "A replica accepts a PrePrepare for its time only if that time is not before the last accepted batch and near the clock reading of its first reception; a correct primary's batch, whose time is not before any accepted one and near the receiver's clock, is not refused for its time; messages of one faulty node change neither.", "quantifier": "every sequence of PrePrepares, Prepares, requests, reverts and clock readings at a replica", "why_tests_cant": "The check depends on remembered reception times and on Prepares that arrive in any order before the PrePrepare.", "anchors": ["plenum/server/consensus/ordering_service.py:_is_pre_prepare_time_correct,_is_pre_prepare_time_acceptable,_enqueue_prepare,_process_stashed_pre_prepare_for_time_if_possible,_add_to_pre_prepares"]}
{"id": "C58", "title": "A transaction author agreement, once written, stays what it was, and acceptance of it is judged as documented", "statement": "In every history of config batches applied, committed and rejected: the text, ratification date and digest recorded for a version of the agreement and the mechanisms recorded for a version never change once committed; the agreement in force exists, is not retired, and has acceptance mechanisms; only trustees add, retire or disable agreements; a request for a ledger that needs it passes exactly when no agreement is in force or it carries an acceptance of a recorded agreement, not retired at the time of the batch, dated to a day between ratification and the batch, by a mechanism in force; and nodes that applied the same batches agree on that.", "quantifier": "every sequence of agreement, mechanism and disable requests in batches with any times, commits and rejects; every acceptance", "why_tests_cant": "The state is shared by three handlers, a digest index and uncommitted batches; collisions and interleavings of commits are not reached by tests.", "anchors": ["plenum/server/request_handlers/txn_author_agreement_handler.py", "plenum/server/request_handlers/txn_author_agreement_aml_handler.py", "plenum/server/request_handlers/txn_author_agreement_disable_handler.py", "plenum/server/request_handlers/static_taa_helper.py", "plenum/server/request_managers/write_request_manager.py:do_taa_validation"]}
{"id": "C57", "title": "Nodes of the pool never share a name, an address or an owner, and only their owners change them", "statement": "In every pool state reached from a genesis without shared names, addresses and owners: different nodes have different aliases, node addresses, client addresses and owners; a node, once added, stays, with its alias and owner; a transaction changes one node and of it only the fields given; only a node's owner can change it.", "quantifier": "every sequence of NODE requests by any authors in batches applied, committed, rejected, caught up, with restarts", "why_tests_cant": "Uniqueness is over all histories of requests, including those in the same uncommitted batch.", "anchors": ["plenum/server/request_handlers/node_handler.py", "plenum/common/messages/client_request.py:ClientNodeOperationData"]}
{"id": "C59", "title": "The registry of nodes in memory is what the pool ledger says, on every node", "statement": "After every history of committed, rejected and caught-up batches with restarts at any point, a node's registry lists exactly the nodes whose last word on services is validator, with the last addresses given; it equals what a restart would read from the ledger; nodes with the same pool ledger have the same validators in the same order; nodes known earlier keep their order; and no history raises an exception.", "quantifier": "every sequence of batches of valid NODE transactions, commits, rejects, catch-ups and restarts, on any node", "why_tests_cant": "Incremental updates, catch-up updates and the reading at start are three different pieces of code that must agree for every history.", "anchors": ["plenum/server/pool_manager.py:onPoolMembershipChange,nodeServicesChanged,nodeHaChanged,_load_nodes_order_from_ledger", "plenum/common/stack_manager.py:parseLedgerForHaAndKeys,connectNewRemote,stackHaChanged", "plenum/server/node.py:execute_pool_txns,postTxnFromCatchupAddedToLedger"]}
{"id": "C60", "title": "A request is written at most once, and once written it is found again", "statement": "Whatever PrePrepares, batches, reverts, restarts and catch-ups a node goes through: no two transactions in its ledgers, written or pending, have the same payload (author, request number, operation); a client repeating a written request gets its ledger, sequence number and transaction; repeating it with other signatures it is told so; a request never written is never reported as written; a PrePrepare with a request written or pending already is not accepted.", "quantifier": "every sequence of batches created, received (with any content), ordered, executed, reverted, caught up, with restarts", "why_tests_cant": "Replays are rejected through an index kept beside the ledgers by several pieces of code; it must agree with the ledgers after every history.", "anchors": ["plenum/server/consensus/ordering_service.py:_do_dynamic_validation,_process_req_during_batch", "plenum/server/node.py:updateSeqNoMap,getReplyFromLedgerForRequest,postTxnFromCatchupAddedToLedger,apply_stashed_reqs", "plenum/persistence/req_id_to_txn.py"]}
{"id": "C61", "title": "Executing an ordered batch writes exactly the transactions applied for it, and never fails", "statement": "After every history, executing the next ordered batch succeeds and appends to its ledger exactly the requests reported as ordered, in their order, with the time of the batch, so that ledger and state have the roots of the PrePrepare and nodes executing the same PrePrepare have the same ledger; the committed state is always that of the ledger; a refused PrePrepare and a revert of unordered batches leave nothing behind.", "quantifier": "every sequence of batches created, received, ordered, executed, reverted by view changes and catch-ups, executed after a revert, caught up, with restarts, for any number of ledgers", "why_tests_cant": "Application, ordering and execution are interleaved and share the uncommitted transactions of several ledgers; only an invariant over all interleavings shows that counts and roots match.", "anchors": ["plenum/server/consensus/ordering_service.py:_apply_pre_prepare,_validate_applied_pre_prepare,_apply_and_validate_applied_pre_prepare,_revert,revert_unordered_batches,create_3pc_batch,_order_3pc_key", "plenum/server/batch_handlers/batch_request_handler.py:_commit", "plenum/common/ledger.py:appendTxns,commitTxns,discardTxns", "plenum/server/node.py:executeBatch,apply_stashed_reqs"]}
{"id": "C62", "title": "A write request is accepted only if everybody it names has signed it", "statement": "A node accepts a write request, from a client or with a PROPAGATE, only if it names an author and its author (one identifier or all signers), its endorser and everybody listed with a signature have each signed exactly this request with the key the node has for them at that moment.", "quantifier": "every history of identities written, reverted and caught up, restarts and requests received, every request with any combination of author, endorser and signatures", "why_tests_cant": "Forgeries are combinations of identifiers, keys, caches and ledger states that no test enumerates.", "anchors": ["plenum/server/client_authn.py", "plenum/server/req_authenticator.py", "plenum/common/verifier.py", "plenum/common/messages/client_request.py:ClientMessageValidator", "plenum/common/request.py", "plenum/server/node.py:verifySignature,validateClientMsg,processPropagate"]}
{"id": "C63", "title": "Only stewards write identities, and there are no more stewards than the threshold", "statement": "In every history, each identity written after the genesis was written by somebody who was a steward in the state just before; who added an identity never changes, its role is that of the last transaction about it and its key the last one given; the number of stewards stays within the configured threshold (or what the genesis had); nodes with the same ledger judge a request the same; changing one's key does not change one's role.", "quantifier": "every sequence of batches of NYM requests by any authors, applied, committed, reverted, caught up, with restarts", "why_tests_cant": "Authority is read from the uncommitted state and a counter kept beside it, which must agree after every history.", "anchors": ["plenum/server/request_handlers/nym_handler.py", "plenum/server/request_handlers/utils.py:is_steward,get_nym_details"]}
{"id": "C64", "title": "Requests are checked with the key the ledger has for their signer, and writing an identity never fails", "statement": "At every moment, on every node, the key a signature is checked with is the one in the signer's record on the ledger, so that after a change of key the old one is refused and the new one accepted; executing, catching up and reading at start any valid NYM transaction raises no exception.", "quantifier": "every sequence of batches of valid NYM requests, commits, reverts, catch-ups and restarts", "why_tests_cant": "The keys are kept in a table in memory filled by three paths, which must agree with the ledger after every history.", "anchors": ["plenum/server/node.py:addNewRole,addGenesisNyms,execute_domain_txns,postTxnFromCatchupAddedToLedger", "plenum/server/client_authn.py:SimpleAuthNr,CoreAuthMixin", "plenum/common/verifier.py:DidVerifier"]}
{"id": "C65", "title": "An observer applies the committed batches, in order, each once, and nothing else", "statement": "An observer that receives committed batches from the nodes of the pool, f of which may lie, applies only batches that f+1 nodes sent; it applies them in the order of their numbers, without gap and each once; whenever f+1 nodes have sent the batch that comes next it is applied, whatever order the messages come in; and no message makes it fail.", "quantifier": "every sequence of messages from any senders, any quorum", "why_tests_cant": "Messages of different nodes and batches interleave in any order, and some are forged; tests replay a few orders.", "anchors": ["plenum/server/observer/observer_sync_policy_each_batch.py:ObserverSyncPolicyEachBatch", "plenum/server/observer/observable_sync_policy_each_batch.py", "plenum/server/node.py:executeBatch,send_to_observer", "plenum/common/messages/node_messages.py:BatchCommitted"]}
{"id": "C66", "title": "Batches that may have been ordered survive view changes", "statement": "If at some node a batch may have been ordered at a place (a quorum of nodes sent Commits for it, as for all places before it), then in every later view correct nodes propose, vote for and order only this batch at this place, and every NewView they accept names it unless the checkpoint it names covers the place. Hence two correct nodes never order different batches at the same place, even in different views.", "quantifier": "every number of views, every history of messages in each view at each of n nodes with at most f faulty ones that send anything, including any ViewChange messages", "why_tests_cant": "The property is about all interleavings of several views with faulty participants; the existing simulation tests draw random schedules of correct nodes and check order afterwards. The failing schedules need batches from different views to be listed in an unusual order.", "anchors": ["plenum/server/consensus/view_change_service.py: ViewChangeService._build_view_change_msg, NewViewBuilder", "plenum/server/consensus/ordering_service.py: OrderingService.process_view_change_started, process_new_view_checkpoints_applied, _process_pre_prepare, _finish_view_change", "plenum/server/replica_validator.py: ReplicaValidator"]}
{"id": "C67", "title": "Multi-signatures are signed by a quorum and every node accepts them", "statement": "Every BLS multi-signature that a node makes when it orders a batch, stores for proofs and puts into its next PrePrepare names different nodes, at least n - f, each of which sent a signature of exactly this value (ledger, state root, pool state root, ledger root, time of the batch) that is correct for its key in the pool state of the batch; so more than f of them are correct nodes. Every node with the same pool state accepts it. What is stored under a state root is for this root. When correct signatures of a quorum came in before the batch is ordered, there is a multi-signature for every ledger the batch changed. No message of another node makes a node raise an exception here. The cached keys are those of the pool state.", "quantifier": "every sequence of PrePrepares, Commits, own Commits, ordered batches and garbage collections at a replica, every signature scheme in which correct signatures combine into a correct multi-signature, every pool state", "why_tests_cant": "Signatures, batches and key changes interleave in any order and faulty nodes choose what they sign and how they name ledgers; tests sign a few values with fixed keys.", "anchors": ["plenum/bls/bls_bft_replica_plenum.py:BlsBftReplicaPlenum", "plenum/bls/bls_key_register_pool_manager.py:BlsKeyRegisterPoolManager", "plenum/bls/bls_store.py:BlsStore", "crypto/bls/bls_multi_signature.py:MultiSignatureValue", "plenum/server/consensus/ordering_service.py:_validate_commit,_do_commit,_order_3pc_key"]}
{"id": "C68", "title": "Reads give the state now or at a time, with proofs that clients can trust", "statement": "A read of a state entry gives the value of the content committed last, and a read at a time gives the value of the content committed by the last batch not later than that time (nothing if there is none), in particular for the transaction author agreement by version, digest, time or as the latest. If the node has a multi-signature of that state's root, the reply has a proof for this root, and the client's check passes for the value in the reply, also when the entry does not exist. A client that knows the root to be one the state had accepts no other value, whoever sends the reply.", "quantifier": "every sequence of changes, reverts, restarts, crashes, committed batches and caught up transactions of a ledger, every key, every time, every multi-signature received", "why_tests_cant": "Values, proofs and times depend on the whole history of the state and on where the process stopped; tests look up a few entries after a few batches.", "anchors": ["plenum/server/request_handlers/handler_interfaces/read_request_handler.py:_get_value_from_state", "plenum/server/request_handlers/get_txn_author_agreement_handler.py:GetTxnAuthorAgreementHandler", "plenum/server/request_handlers/get_txn_author_agreement_aml_handler.py:GetTxnAuthorAgreementAmlHandler", "storage/state_ts_store.py:StateTsDbStorage", "plenum/server/batch_handlers/ts_store_batch_handler.py:TsStoreBatchHandler", "plenum/server/node.py:postTxnFromCatchupAddedToLedger"]}
{"id": "C69", "title": "A message of the three phases that was missed is asked for once and taken only as asked", "statement": "A replica that misses the PrePrepare, Prepare or Commit of a batch asks for it, and not again until the batch is ordered, falls below the stable checkpoint, or a view change starts. It handles a message that comes in a reply only if it is asking for this kind of message of this batch, has not ordered the batch, does not have the PrePrepare already, and the message says what was expected; the message then counts as one of the node that replied. A replica of the same instance and view that has its own such message replies with it, and the replica that asked then handles it.", "quantifier": "every sequence of missing messages, requests, replies (wrong ones and ones that were not asked for included), votes, ordered batches, stable checkpoints and view changes, at the replica that asks and at the one that is asked", "why_tests_cant": "Whether a reply is wanted, and what is sent in reply, depend on everything that came before, and on the order in which the votes of others arrived; tests send one request and one reply.", "anchors": ["plenum/server/consensus/message_request/message_req_service.py:MessageReqService", "plenum/server/consensus/message_request/message_handlers.py:ThreePhaseMessagesHandler", "plenum/server/models.py:ThreePhaseVotes", "plenum/server/consensus/ordering_service.py:_request_three_phase_msg", "plenum/server/node.py:route_message_rep"]}
{"id": "C70", "title": "Replies say where the transaction is in the ledger, and say the same for ever", "statement": "Every transaction of a batch that is committed is replied to, with the root of the ledger up to it and a path that a client accepts for it. A client that sends the request again gets exactly this reply whatever happened since, one that sends the same payload with other signatures is refused, and a request that was not ordered is not replied to from the ledger. GET_TXN replies with the transaction that has the number, with the root and size of the ledger and a path for them; a client that knows the root accepts no other transaction for the number, whoever replies, and the multi-signature in the reply is for the root in it.", "quantifier": "every history of batches applied, committed, discarded and lost in crashes, of catch-up, of audit transactions and multi-signatures, every number asked for, and every reply a client may get", "why_tests_cant": "A reply is made from the ledger, the index, the audit ledger and the store of multi-signatures at different times; that they fit depends on the whole history, and what a client accepts on all replies that could be forged.", "anchors": ["plenum/server/node.py:getReplyFromLedgerForRequest", "plenum/server/node.py:getReplyFromLedger", "plenum/server/node.py:process_query", "plenum/server/node.py:updateSeqNoMap", "plenum/server/request_handlers/get_txn_handler.py:GetTxnHandler", "plenum/persistence/req_id_to_txn.py:ReqIdrToTxn", "ledger/merkle_verifier.py:verify_leaf_inclusion"]}
{"id": "C71", "title": "A primary proposes waiting requests in order, in batches of limited size, and keeps every ledger fresh", "statement": "When its timer fires, a primary that may send proposes, for every ledger that has a full batch of requests waiting or requests that waited long enough, and for every ledger that had no batch for longer than the freshness interval, one batch: the first waiting requests in the order in which they became ready, at most as many as allowed, with the next number of the view, a time that does not go back and a correct list of its invalid requests. It proposes nothing else. No request that became ready is lost, whatever is ordered, reverted or caught up: it waits, is on its way, was ordered, was freed, or had been ordered before. Batches of a view have different, growing numbers, not more than the allowed number is on its way, and once all is ordered every ledger is fresh.", "quantifier": "every history of requests becoming ready and freed, calls of the timer at any times, batches ordered, catch-ups that revert what is on its way, every configuration and every result of validation", "why_tests_cant": "Queues, numbers, marks of freshness and batches on their way are changed by several handlers that interleave in any order; what is lost or used twice shows only in histories that combine them, such as a catch-up while batches are on their way.", "anchors": ["plenum/server/consensus/ordering_service.py:send_3pc_batch", "plenum/server/consensus/ordering_service.py:can_send_3pc_batch", "plenum/server/consensus/ordering_service.py:create_3pc_batch", "plenum/server/consensus/ordering_service.py:_consume_req_queue_for_pre_prepare", "plenum/server/consensus/ordering_service.py:revert_unordered_batches", "plenum/server/replica_freshness_checker.py:FreshnessChecker", "plenum/server/consensus/monitoring/freshness_monitor_service.py:FreshnessMonitorService"]}
{"id": "C72", "title": "The measured throughput of an instance is the average its requests call for, at every time and after every pause", "statement": "Whatever requests were ordered when and whenever the measure is asked for, no call raises or runs for ever. In the first windows and during a revival (at most min_cnt windows after a fade-out) there is no measure. At all other times it is the exponential moving average of the numbers of requests in the windows that are over, where a fade-out and the windows with requests after it are replaced by their mean; levelling loses no request. So the measure is never negative nor above the best window, goes to the true rate when that is steady, shrinks by the same factor in each window without requests, and is there again after one empty window or min_cnt windows with requests.", "quantifier": "every sequence of requests ordered and queries at growing times, every window length and every count of windows of at least 2", "why_tests_cant": "The measure is kept by a machine of four states that is driven by windows that end only when somebody asks; that it equals the average over all windows, also the ones passed in one go, depends on every pattern of pauses and spikes.", "anchors": ["plenum/common/throughput_measurements.py:RevivalSpikeResistantEMAThroughputMeasurement", "plenum/common/throughput_measurements.py:SafeStartEMAThroughputMeasurement", "plenum/common/throughput_measurements.py:EMAThroughputMeasurement"]}
{"id": "C73", "title": "The monitor finds the master degraded, reports late requests and finds slow backups exactly when the history of orderings calls for it", "statement": "After every history of instances added and removed, resets, requests received, ordered by each instance, dropped and checks: no call raises; a request is tracked while it waits for some instance and unordered while it waits for the master; a check reports a request once, when it waited for the master for longer than the limit; the master is found degraded exactly when its measured throughput is below delta times the lower median of the other instances, or its average latency is omega above their higher median; a backup is found exactly when its throughput is below delta times the median of the others; a check of performance gives these verdicts unless the count of ordered requests is that of the last check. So a master that orders nothing while others do is found, and instances that order alike are never found.", "quantifier": "every history of events with growing times of a node that keeps instance 0, every parameter (windows of positive length, min_cnt at least 2), every set of instances", "why_tests_cant": "The verdict depends on the whole history of every instance through averages, medians, tracking of requests and resets; tests feed a few patterns.", "anchors": ["plenum/server/monitor.py:Monitor", "plenum/server/monitor.py:RequestTimeTracker", "plenum/common/latency_measurements.py:EMALatencyMeasurementForAllClient", "plenum/common/average_strategies.py", "plenum/server/node.py:checkPerformance", "plenum/server/node.py:_update_new_ordered_reqs_count"]}
{"id": "C74", "title": "Backup instances are stopped only by enough votes or the node's own finding, and come back with every view", "statement": "The master instance always runs. Since the instances were last restored, a backup runs exactly as long as neither f+1 different nodes voted against it in this view, nor the node itself f+1 times, nor the node dropped it on its own; so f faulty nodes cannot stop an instance the node does not complain about. A node tells the others exactly its own findings, when a quorum is to decide. With every new view and after a catch-up all f+1 instances run, those running are untouched and no old vote counts. When the pool changes, exactly the instances of the new pool run, and those that ran are untouched. A backup whose primary is disconnected is dropped when, and not before, that lasted for the tolerated time, and not when it came back.", "quantifier": "every history of messages, own findings, connections and disconnections of primaries, due checks, new views and changes of the pool; every f and every strategy of removal", "why_tests_cant": "Votes, views, timers and pool changes interleave freely; tests try single removals.", "anchors": ["plenum/server/backup_instance_faulty_processor.py:BackupInstanceFaultyProcessor", "plenum/server/replicas.py:add_replica", "plenum/server/replicas.py:remove_replica", "plenum/server/node.py:adjustReplicas", "plenum/server/node.py:_remove_replica_if_primary_lost", "plenum/server/node.py:primaries_disconnection_times"]}
{"id": "C75", "title": "A node votes against a disconnected primary after the tolerated time, again and again, and not else", "statement": "The master instance of a node votes for a view change because of its primary only while it takes the primary for disconnected, and not before the tolerated time is over. When it is over the node votes each time its timer is served, less than the retry interval after the last vote, as long as the primary does not come back and the node is ready. The node is told of every disconnection of the primary of an instance at once, and of nothing else, and the time kept for it is the one of the last disconnection.", "quantifier": "every history of connections, disconnections, selections of primaries (with a report or without), changes of status and calls of the timer, at any times; every configuration", "why_tests_cant": "Schedules of the timer against connections and view changes; tests try single disconnections.", "anchors": ["plenum/server/consensus/monitoring/primary_connection_monitor_service.py:PrimaryConnectionMonitorService", "plenum/common/timer.py:RepeatingTimer"]}
{"id": "C76", "title": "Frozen ledgers stay as they were, and all nodes record the same of them", "statement": "A ledger gets frozen only by the request of a trustee that names it, and never if it is one of the core (audit, pool, config, domain); such a request freezes all it names and never stops the node. What is recorded of the ledger - size, root, state root - tells of it as it is when it gets frozen, and is the same on every node that applies the batch, whatever it has committed by then, and on every node that catches up. A frozen ledger takes no transaction any more, its record never changes, and it stays in the audit ledger.", "quantifier": "all ledgers at the start; all histories of batches applied, committed and taken back, with any requests; all ways of hashing ledgers and states", "why_tests_cant": "It depends on how many batches are applied and not committed at each node when the request comes, and on the history of the audit ledger.", "anchors": ["plenum/server/request_handlers/ledgers_freeze/ledgers_freeze_handler.py:LedgersFreezeHandler", "plenum/server/request_handlers/ledgers_freeze/ledger_freeze_helper.py:StaticLedgersFreezeHelper", "plenum/server/request_handlers/handler_interfaces/write_request_handler.py:_validate_ledger_is_not_frozen", "plenum/server/batch_handlers/audit_batch_handler.py:_fill_frozen_ledgers"]}
{"id": "C77", "title": "The primary of a backup instance never reuses a batch number, nor skips one", "statement": "In a view the PrePrepares a node sends as the primary of a backup instance are numbered 1, 2, 3, ... without repetition and without gap, whatever restarts, catch-ups, view changes and removals of instances happen in between: after a restart in the same view it goes on after the last number it sent. A batch of a backup instance is not passed over: it is ordered, or its view ends.", "quantifier": "all histories of batches sent, received and ordered in backup instances, checkpoints, commits of the master, view changes, restarts, catch-ups and removals of instances; all choices of primaries; any bound on batches in flight", "why_tests_cant": "Backup instances keep no ledger; what they know after a restart comes from one record on disk, and the cases differ in when that record was written and erased.", "anchors": ["plenum/server/last_sent_pp_store_helper.py:LastSentPpStoreHelper", "plenum/server/node.py:select_primaries_on_catchup_complete", "plenum/server/node.py:on_view_change_start", "plenum/server/consensus/ordering_service.py:can_send_3pc_batch", "plenum/server/consensus/ordering_service.py:_do_send_3pc_batch", "plenum/server/replica.py:clear_requests_and_fix_last_ordered"]}
{"id": "C78", "title": "A message that is accepted is well formed", "statement": "A node accepts a message from JSON if and only if every field its class requires is there, every field of the class that is there holds a value of its type and range (numbers are natural, ledgers exist, hashes are 32 bytes in base 58, digests are 64 hexadecimal characters, nested messages are themselves well formed, ...), and, for a request, it names its author and its signers consistently. The parts of an accepted message can then be used: building the digest of a ViewChange, say, does not fail.", "quantifier": "all JSON values; all 32 message classes and the request with its ten kinds of operation; all sets of ledgers; any way ip addresses and numerals are read", "why_tests_cant": "The values are unbounded nested JSON; a test tries some values for some fields.", "anchors": ["plenum/common/messages/fields.py:FieldBase", "plenum/common/messages/message_base.py:MessageValidator", "plenum/common/messages/message_base.py:MessageBase", "plenum/common/messages/client_request.py:ClientMessageValidator", "plenum/common/messages/node_messages.py:ViewChange", "plenum/common/messages/node_messages.py:PrePrepare"]}
{"id": "C79", "title": "No message stops the node; what reaches the inboxes is valid; clients get an answer", "statement": "Whatever JSON a client or a node sends, single or in nested Batches, the node goes on. A message is passed on for processing only if it is well formed, a handler for its class exists, and, for a request (by itself or in a Propagate), its signatures were verified; a request of a client must have passed static validation too. A message of a client that is not passed on is answered with a NACK for its author and number.", "quantifier": "all JSON values sent by clients and nodes, Batches nested to any depth; all outcomes of static validation and of the verification of signatures; blacklisted senders; all contents of Batches and all ways they parse", "why_tests_cant": "The values are unbounded; the handling of wrong messages is itself code that can fail, on values no one thought of.", "anchors": ["stp_zmq/zstack.py:processReceived", "plenum/common/batched.py:doProcessReceived", "plenum/server/node.py:handleOneClientMsg", "plenum/server/node.py:handleInvalidClientMsg", "plenum/server/node.py:validateClientMsg", "plenum/server/node.py:unpackClientMsg", "plenum/server/node.py:handleOneNodeMsg", "plenum/server/node.py:validateNodeMsg", "plenum/server/node.py:verifySignature", "plenum/common/messages/node_message_factory.py:MessageFactory"]}
{"id": "C80", "title": "Messages to clients out of reach are kept within limits, never lost silently and never sent twice", "statement": "What a node sends to a client goes out at once if the client can be reached; otherwise it is kept and sent again. Each message handed over is, exactly once, sent, or given up as unsendable, as too old, or to make room, or still kept. No more than the set numbers of clients and of messages per client are kept; nothing is given up to make room within these numbers; after the timers run, no message is left that is too old, and none is left unsent that is due to a client in reach. Messages reach a client in the order in which they were handed over.", "quantifier": "all histories of messages to all clients, of the two timers and of time; all answers of the socket at each attempt; all limits of at least one", "why_tests_cant": "The answers of the socket at each attempt, the times and the interleavings of clients are unbounded.", "anchors": ["stp_zmq/client_message_provider.py:ClientMessageProvider", "stp_core/config.py"]}
{"id": "C81", "title": "Reading from the network is bounded, fair and loses nothing", "statement": "In one turn a node reads no more messages from clients, and from each node, than the quota; none from clients while too many requests wait to be ordered. It stops only when nothing waits or the quota is used up. Messages that are too long or no text are reported and left out; all others are handled exactly once, and those of one sender in the order in which they arrived, also when the sender becomes known only later. No message makes reading fail.", "quantifier": "all contents of all sockets, all quotas and limits, all interleavings of arrivals, turns, senders that become known or are forgotten, and changes of mode", "why_tests_cant": "Contents and interleavings are unbounded; what a faulty peer puts on the wire is not what tests send.", "anchors": ["stp_zmq/zstack.py:ZStack.service", "stp_zmq/zstack.py:_receiveFromListener", "stp_zmq/zstack.py:_receiveFromRemotes", "stp_zmq/zstack.py:_verifyAndAppend", "stp_zmq/zstack.py:processReceived", "stp_zmq/zstack.py:process_unknown_remote_msgs", "plenum/server/quota_control.py:RequestQueueQuotaControl"]}
{"id": "C82", "title": "A node stays in touch with the nodes of the pool", "statement": "When a node joins, moves or gets other keys, the others connect to it where and with the key the pool ledger says, at once, and no old socket stays open. A node counts as connected if and only if it was heard on the connection in use and the events of its socket do not end with a loss. Each change is reported once and exactly, so who follows the reports knows who is connected. A node that was lost is tried again until it answers, first on the same socket, then on a new one. Nothing of this raises an error.", "quantifier": "all histories of changes of the pool, messages, socket events, checks and passing time; all configurations", "why_tests_cant": "Interleavings of joins, losses and checks are unbounded, and a test network rarely loses connections at the wrong moment.", "anchors": ["stp_core/network/keep_in_touch.py:KITNetworkInterface.checkConns", "stp_zmq/kit_zstack.py:KITZStack.maintainConnections", "stp_zmq/kit_zstack.py:retryDisconnected", "stp_zmq/remote.py:Remote.isConnected", "stp_zmq/zstack.py:ZStack.connect", "plenum/server/pool_manager.py:TxnPoolManager.onPoolMembershipChange"]}
{"id": "C83", "title": "Actions asked for are run once, when due, unless cancelled; repeated ones again and again", "statement": "An action asked for, at once or after some time, is run exactly once, not before it is due, in the first call of the queue after it is due, in the order of time; not at all if it was cancelled before. A repeated action is run once in every interval from its start until it is stopped. What an action does (asking for others, cancelling, starting, stopping, taking time, failing) changes nothing of this.", "quantifier": "all actions and what they do to the queue, all histories of asking, cancelling, starting, stopping, waiting and calls", "why_tests_cant": "Actions change the queue while it is worked off; the histories are unbounded.", "anchors": ["plenum/server/has_action_queue.py:HasActionQueue._schedule", "plenum/server/has_action_queue.py:HasActionQueue._cancel", "plenum/server/has_action_queue.py:HasActionQueue._serviceActions", "plenum/server/has_action_queue.py:HasActionQueue.startRepeating", "plenum/server/has_action_queue.py:HasActionQueue.stopRepeating"]}
{"id": "C84", "title": "A log kept in files gives back what was put into it", "statement": "Every record put into a file-backed store (one file with separators, or a directory of files of a fixed number of records) is found again: iterating gives all records in order, with their keys or numbers, each once; asking for a key gives the value put last; a range gives the records with numbers in it; reading never changes the store. This holds for all keys and values, after every new start, and after a crash in a write for all records put before it and after it.", "quantifier": "all settings, keys, values, lengths and histories of writes, reads, crashes at any byte, restarts and resets", "why_tests_cant": "The reads of 4096 bytes fall anywhere in the records; contents and positions of separators are unbounded.", "anchors": ["storage/binary_file_store.py:BinaryFileStore._lines", "storage/binary_file_store.py:BinaryFileStore._file_chunks", "storage/kv_store_single_file.py:SingleFileStore.put", "storage/kv_store_file.py:KeyValueStorageFile._baseIterator", "storage/kv_store_file.py:KeyValueStorageFile.get", "storage/chunked_file_store.py:ChunkedFileStore", "storage/helper.py:initKeyValueStorage"]}
{"id": "C85", "title": "What a wallet signs is accepted, and what is written can be checked from the ledger alone", "statement": "A request signed with a wallet, by one or by several signers in any order, is authenticated by every node, as signed by exactly them, and with the same signatures no changed request is. The transaction written for an authenticated request says its type, data, author, number, protocol, agreement acceptance, endorser and whether it is forced as asked for; from it alone anybody can compute what was signed and check all signatures, and two requests written alike ask for the same. The digest of a request is that of its content.", "quantifier": "all requests, signers, orders of signing and reading digests", "why_tests_cant": "All combinations of optional parts of requests and all operations; ways of signing and caching differ by order of calls.", "anchors": ["plenum/client/wallet.py:Wallet.signRequest", "plenum/client/wallet.py:Wallet.do_multi_sig_on_req", "plenum/common/request.py:Request", "plenum/server/client_authn.py:CoreAuthMixin.authenticate", "plenum/server/client_authn.py:NaclAuthNr.authenticate_multi", "plenum/common/messages/client_request.py:ClientMessageValidator.validate", "plenum/common/txn_util.py:reqToTxn"]}
{"id": "C86", "title": "Nodes start with the transactions of the genesis file", "statement": "A genesis file made of transactions gives back those transactions in order, the transactions of each author numbered from 1; adding to a file keeps what is in it. A node started with the file, however often it is stopped, crashes and is started again, has these transactions in its ledger before all others, and so has every node with the same file; later changes of the file change nothing.", "quantifier": "all transactions, contents of the file, histories of starts, crashes at any write, stops and changes of the file", "why_tests_cant": "Crashes fall between any two writes; files may be edited by hand with any line ends.", "anchors": ["plenum/common/txn_util.py:createGenesisTxnFile", "ledger/genesis_txn/genesis_txn_initiator_from_file.py:GenesisTxnInitiatorFromFile", "storage/text_file_store.py:TextFileStore", "storage/store_utils.py:cleanLines", "ledger/ledger.py:Ledger.__init__"]}
{"id": "C87", "title": "A node's status and its instances' knowledge follow its connections", "statement": "A running node is started exactly while it is connected to every other node of the pool, partly started while it reaches at least 2f+1 with itself, and starting otherwise; it is ready only while a strong quorum is connected. Every instance is told of each connection made and lost, in turn, and knows at every moment who is connected. A warning is given exactly when fewer than f+1 are left after n-f had been connected.", "quantifier": "all pools, and all histories of connections made and lost, changes of the pool, starts, stops, and instances added and removed", "why_tests_cant": "Connections come and go in any order, between changes of the pool and of the instances.", "anchors": ["plenum/server/node.py:onConnsChanged", "plenum/server/node.py:setPoolParams", "plenum/common/motor.py:Motor", "plenum/common/event_bus.py:ExternalBus", "plenum/server/inconsistency_watchers.py:NetworkInconsistencyWatcher", "stp_core/network/keep_in_touch.py:KITNetworkInterface"]}
{"id": "C88", "title": "A recording holds everything in order and is played back as it was", "statement": "With recording on, everything a node receives and sends and every loss of a connection is recorded. Playing the recordings of the node's and the client's connections gives a node all recorded messages and losses, each once, in the order in which they came, no sooner after one another than they were recorded, and as soon as the time has come. A node that stopped or crashed can be started again with recording on, and a recording can be replayed any number of times.", "quantifier": "all events, times, contents, times of the calls while playing, and histories of starts, stops and crashes", "why_tests_cant": "Events may share a time, the clock may start again, and calls while playing may come at any time.", "anchors": ["plenum/recorder/recorder.py:Recorder", "plenum/recorder/recorder.py:add_start_time", "plenum/recorder/recorder.py:add_stop_time", "plenum/recorder/combined_recorder.py:CombinedRecorder", "plenum/recorder/replayer.py:replay_patched_node"]}
{"id": "C89", "title": "Metrics tell of all that was measured, and nothing else", "statement": "For every name, what is reported of any span of time - how many values, their sum, their sum of squares, the lowest, the highest - is that of exactly the values measured and flushed within it, however they were split over flushes and frames; nothing that is measured makes a flush fail; after the store is closed measuring goes on without errors and stores nothing.", "quantifier": "all histories of measurements and flushes, clocks, spans of time, lengths of frames and sets of known names", "why_tests_cant": "Totals must agree for any split of values over flushes and frames and any readings of the clock.", "anchors": ["plenum/common/value_accumulator.py:ValueAccumulator", "plenum/common/metrics_collector.py:KvStoreMetricsCollector", "plenum/common/metrics_collector.py:KvStoreMetricsFormat", "plenum/common/metrics_stats.py:load_metrics_from_kv_store", "plenum/common/metrics_stats.py:MetricsStats"]}
{"id": "C90", "title": "The accumulating monitor holds degraded exactly the instances that have long been behind", "statement": "With the accumulating monitor on, an instance is held to be degraded exactly if for longer than the timeout, at every look at it, it had ordered fewer requests since the last reset than another instance, by more than a factor times the average rate of incoming requests. The average lies between zero and the rate of the busiest window, and fades without requests. Instances may be added and removed at any time, and are judged by what they did since they are there.", "quantifier": "all histories of requests, orderings, resets, looks and changes of the instances, and all settings", "why_tests_cant": "The verdict depends on the whole history of looks, orderings and arrivals since the last reset.", "anchors": ["plenum/common/monitor_strategies.py:AccumulatingMonitorStrategy", "plenum/common/moving_average.py:EMAEventFrequencyEstimator", "plenum/server/monitor.py:Monitor.isMasterDegraded"]}
{"id": "C91", "title": "A client's records tell what each node answered to each request", "statement": "For everything that is added to a client's store of requests and answers: each request is told as it was made, with those who acknowledged it and with what each node said last in refusing, rejecting or replying; adding a reply tells from how many nodes there is one; no node's answer makes another node's; the last request id is the greatest; the log of transactions knows exactly those that were added.", "quantifier": "all histories of requests and answers, of any contents, for any identifiers and request ids", "why_tests_cant": "Answers come from nodes that may be malicious and hold any text.", "anchors": ["plenum/persistence/client_req_rep_store_file.py:ClientReqRepStoreFile", "plenum/persistence/client_req_rep_store.py:ClientReqRepStore.getAllReplies", "plenum/persistence/client_txn_log.py:ClientTxnLog", "storage/directory_store.py:DirectoryStore"]}
{"id": "C92", "title": "A protocol instance is handed the messages meant for it", "statement": "Whatever messages come and however the number of protocol instances changes with the pool, each instance is handed, in the order in which they came, all messages meant for it since it was made, after the messages that came for it before; none is handed twice or to another; what is kept for instances to come is bounded.", "quantifier": "all histories of messages, for any instances, changes of the number of instances, removals of faulty instances and view changes", "why_tests_cant": "Tests send few messages and change the pool once; messages for instances to come, removal and growth meet only in rare histories.", "anchors": ["plenum/server/node.py:Node.sendToReplica", "plenum/server/node.py:Node.stash_replica_msg_if_needed", "plenum/server/node.py:Node.adjustReplicas", "plenum/server/node.py:Node.processStashedMsgsForReplica", "plenum/server/replicas.py:Replicas.pass_message"]}
{"id": "C93", "title": "Batches that come too early are applied in their turn", "statement": "On a replica that is not the primary, in whatever order the primary's Pre-Prepares and the propagated requests come: batches are applied in the order of their numbers, without a gap, none twice, and only those that came and whose requests are known and finalised; none is lost, and once the first k batches and their requests are there they are applied as soon as the queues are looked at; the batches that are missing before one that came are asked for.", "quantifier": "all histories of Pre-Prepares (also from a malicious primary), requests propagated, finalised and forgotten, batches ordered and queues looked at", "why_tests_cant": "The orders in which messages and requests may come, and be repeated, are unbounded.", "anchors": ["plenum/server/consensus/ordering_service.py:OrderingService.process_preprepare", "plenum/server/consensus/ordering_service.py:OrderingService.dequeue_pre_prepares", "plenum/server/consensus/ordering_service.py:OrderingService._enqueue_pre_prepare", "plenum/server/consensus/ordering_service.py:OrderingService._non_finalised_reqs", "plenum/server/consensus/ordering_service.py:OrderingService._can_dequeue_pre_prepare"]}
{"id": "C94", "title": "Batches of earlier views are applied again after a NewView", "statement": "After a NewView a replica of the master instance applies again the batches that it names, one after the other from the one after the last ordered: those it holds at once, and those it does not hold, and no others, it asks for, once, and takes from the answers. Whatever the answers, only batches that the NewView names are accepted, and only those whose content has the digest claimed are applied. Whoever is asked answers with exactly what it holds. When all is applied, the messages that wait for the view are taken, in their order, each once, and not before.", "quantifier": "all states at the start of a view, all batches named by a NewView, all histories of answers (from anybody, with any content), of looking at the queue, of ordering and of messages that wait", "why_tests_cant": "Which batches a replica misses, in which order the answers come and what malicious nodes put in them are unbounded; tests use a few delays with correct nodes.", "anchors": ["plenum/server/consensus/ordering_service.py:OrderingService.process_new_view_checkpoints_applied", "plenum/server/consensus/ordering_service.py:OrderingService.process_old_view_preprepare_request", "plenum/server/consensus/ordering_service.py:OrderingService.process_old_view_preprepare_reply", "plenum/server/consensus/ordering_service.py:OrderingService._process_pre_prepare_from_old_view", "plenum/server/consensus/ordering_service.py:OrderingService._reapplied_in_new_view", "plenum/server/consensus/ordering_service.py:OrderingService._update_old_view_preprepares", "plenum/server/consensus/utils.py:preprepare_to_batch_id"]}
{"id": "C95", "title": "Observers are told of committed batches, and messages reach the nodes they are for", "statement": "Whoever was added as an observer, with the policy of each batch, more often than removed is an observer. While there is one, each batch that the node commits, and whose requests it still has, is sent, in the order of committing and once, to every observer that is connected when it is sent, and to no one else; what waits is sent in the end whatever limits the serving of queues has. A message for chosen nodes goes to those and no others.", "quantifier": "all histories of adding and removing observers, committing batches, remotes coming and going, serving the queues with any limit", "why_tests_cant": "The interleavings of committing, serving, adding and removing are unbounded; tests have one observer that is connected.", "anchors": ["plenum/server/observer/observable.py:Observable", "plenum/server/observer/observable_sync_policy.py:ObservableSyncPolicy", "plenum/server/observer/observable_sync_policy_each_batch.py:ObservableSyncPolicyEachBatch.process_new_batch", "plenum/server/node.py:Node.service_observable", "plenum/server/node.py:Node._service_observable_out_box", "plenum/server/node.py:Node.sendToNodes", "plenum/server/node.py:Node.send"]}
{"id": "C96", "title": "What an instance's replica hands to its node is acted on once and in order, and no instance starves", "statement": "While a replica is not removed, each message it hands to its node is acted on once or still waits; ordered batches keep their order and so do the others, and without catch-up all keep theirs. When catch-up starts, no ordered batch is left behind. Each ordered batch is processed while the node takes part. A turn takes from each instance its share of the limit, rounded, at least one, so a message waits for no more turns than there are messages before it in its own queue. A rejection goes to the client that sent the request to this node, at most once for each time the request came.", "quantifier": "all histories of replicas handing over messages, clients' requests, turns with any limit, catch-up starting, the node taking part or not, instances coming and going", "why_tests_cant": "Interleavings of replicas, limits and catch-ups are unbounded; tests serve a few messages of two replicas.", "anchors": ["plenum/server/replicas.py:Replicas.get_output", "plenum/server/replicas.py:Replicas.take_ordereds_out_of_turn", "plenum/server/replica.py:Replica._remove_ordered_from_queue", "plenum/server/node.py:Node.service_replicas_outbox", "plenum/server/node.py:Node.force_process_ordered", "plenum/server/node.py:Node.try_processing_ordered"]}
{"id": "C97", "title": "The log files hold the latest records, in order, and take limited space", "statement": "The rotated log files, in the order of their numbers and each read as it is or unpacked, followed by the current one, hold the records logged last, in order and each once, whatever crashes there are and however far compressing got. No record is missing unless as many rotated files are there as are to be kept, and without such a number none is. There are never more rotated files than are to be kept; each file is smaller than the limit or holds a single record.", "quantifier": "all histories of logging records of any size, steps of the compressing processes, crashes before, within and after a change of files with those processes killed or not, and restarts", "why_tests_cant": "The processes that compress run concurrently with logging and survive the node; tests wait for them.", "anchors": ["stp_core/common/logging/CompressingFileHandler.py:CompressingFileHandler"]}
{"id": "C98", "title": "A node's BLS signatures verify under the key the ledger has for it", "statement": "A signature a node puts into its Commits verifies under the BLS key the pool ledger has for the node. After a NODE transaction with a new key, a running validator signs with the saved key if that is the new one, and does not sign otherwise; until then it goes on with the old one, whatever is written to the key files. A damaged key file only keeps the node from signing.", "quantifier": "all histories of writing the key files (in whole or in part), starting and stopping the node and NODE transactions for it that set a key, add or remove the validator service", "why_tests_cant": "Whether the key in memory is the one on the ledger depends on the order of file writes, restarts, demotions and transactions.", "anchors": ["crypto/bls/bls_key_manager.py:BlsKeyManager", "crypto/bls/bls_factory.py:BlsFactoryBft.create_bls_bft", "plenum/server/node.py:Node.update_bls_key", "plenum/server/pool_manager.py:TxnPoolManager.onPoolMembershipChange"]}
{"id": "C99", "title": "Identities and keys have one name in text, and a node finds the key a signer has", "statement": "Bytes written in base58 and read again are the same bytes; exactly the texts over the alphabet are read, and no two texts name the same bytes. From the identifier and the verkey a signer publishes, with a name of its own in base58 or without, a node gets exactly the signer's public key; different keys are published differently. An identifier that is a key needs no verkey. The full verkey the owner sees is the one the node uses, and a key has one verkey.", "quantifier": "all byte strings, all texts, all 32 byte keys, all identifiers, full and abbreviated verkeys", "why_tests_cant": "Leading zero bytes, abbreviations and the several forms of keys multiply; tests try a few random keys.", "anchors": ["plenum/common/signer_did.py:DidIdentity", "plenum/common/verifier.py:DidVerifier", "plenum/common/util.py:rawToFriendly", "stp_core/crypto/nacl_wrappers.py:Verifier"]}
{"id": "C100", "title": "Only a primary that misbehaves is voted out because of what is sent", "statement": "A node votes for a view change because of a three phase message only if the primary sent it in the master instance and it is wrong; a PrePrepare with a wrong time, a request ordered already, a wrong multi-signature or results that cannot be reproduced makes it vote, once, for the next view; a primary that keeps to the rules, other nodes, Prepares, Commits and backup instances never do; one faulty node that is not the primary cannot bring about a view change.", "quantifier": "all replicas, messages, senders and outcomes of the checks; pools of any size and any view", "why_tests_cant": "The order of a dozen checks decides who is blamed; tests try each fault from the node they expect it from.", "anchors": ["plenum/server/consensus/ordering_service.py:OrderingService._can_process_pre_prepare", "plenum/server/consensus/ordering_service.py:OrderingService.process_preprepare", "plenum/server/node.py:Node.reportSuspiciousNode", "plenum/server/suspicion_codes.py:Suspicions", "plenum/server/consensus/view_change_trigger_service.py:ViewChangeTriggerService.process_vote_for_view_change"]}
{"id": "C101", "title": "The content of the state can be listed, whole, at a root and under a prefix", "statement": "The listing of the state holds each key once with its value and nothing else, after any history of sets, removals, commits, reverts, restarts and crashes; so do the listings at an earlier root and under a prefix, and the proof that comes with a prefix verifies each listed value and the absence of every other key under the prefix.", "quantifier": "all histories, all earlier roots, all prefixes and keys, all node lists containing the proof", "why_tests_cant": "Listings walk the whole tree, whose shape depends on all keys at once; tests list a few keys of a few shapes.", "anchors": ["state/pruning_state.py:PruningState.as_dict", "state/pruning_state.py:PruningState.get_all_leaves_for_root_hash", "state/pruning_state.py:PruningState.generate_state_proof_for_keys_with_prefix", "state/trie/pruning_trie.py:Trie.to_dict", "state/trie/pruning_trie.py:Trie._get_last_node_for_prfx", "state/trie/pruning_trie.py:Trie.produce_spv_proof_for_keys_with_prefix"]}
{"id": "C102", "title": "The client stack counts its clients and is restarted when there are too many, but not too often", "statement": "After each service the count is the number of clients connected; the stack is restarted at a service exactly when the limit is reached and the timeout with its random deviation has passed since it was last ready; two restarts are more than the timeout apart, and the limit is not exceeded for longer than timeout and deviation while the stack is serviced; servicing never raises.", "quantifier": "all histories of clients coming and going, service times, random deviations and clients coming back during a restart", "why_tests_cant": "The count follows from events read later than they happen, across restarts; tests connect a few clients once.", "anchors": ["plenum/common/stacks.py:ClientZStack.serviceClientStack", "plenum/common/stacks.py:ClientZStack.handle_listener_events", "plenum/common/stacks.py:ClientZStack.handle_connections_limit", "plenum/common/stacks.py:ClientZStack.init_stack_restart_params", "stp_zmq/zstack.py:ZStack.close"]}
{"id": "C103", "title": "A message on a bus reaches exactly its subscribers, in order", "statement": "A message sent on a bus is handed to every handler subscribed to its type, once per subscription and in the order of the subscriptions, and to nobody else; a message sent by a handler is delivered completely before the outer one goes on; a handler stays subscribed exactly as often as it was subscribed and not unsubscribed; the types a bus names are those with subscribers; a component that cleans up its subscriptions loses exactly those.", "quantifier": "all handlers with any behaviour (sending further messages to any depth, subscribing, unsubscribing, raising), all histories of the bus", "why_tests_cant": "What is delivered depends on what every handler does while the message is on its way; tests use handlers that only record.", "anchors": ["plenum/common/router.py:Router", "plenum/common/router.py:Subscription", "plenum/common/event_bus.py:InternalBus", "plenum/common/event_bus.py:ExternalBus"]}
{"id": "C104", "title": "Boxes of replicas that are refilled while they are emptied lose nothing, and each replica gets its turn", "statement": "What a node took from a replica's box followed by what is still in it is always what was there followed by what was added meanwhile; when the round over the replicas ends, each has handed out what it had, up to its share of the limit; no more than the limit is handed out; every round ends; before a catch-up exactly the ordered batches are taken out, in order, and the rest stays in order.", "quantifier": "all contents of the boxes, all numbers of replicas, all limits and all reactions of the node to a message (further messages put into any box, exceptions); C96 is about whole histories with boxes that do not change during a turn", "why_tests_cant": "The boxes change while they are emptied, depending on what the node does with each message; tests empty boxes that stay as they are.", "anchors": ["plenum/server/replicas.py:Replicas.get_output", "plenum/server/replicas.py:Replicas.take_ordereds_out_of_turn", "plenum/server/node.py:Node.service_replicas_outbox", "plenum/server/replica.py:Replica._handle_external_messages", "plenum/server/replica.py:Replica._remove_ordered_from_queue"]}
{"id": "C105", "title": "A node knows the transport keys of the validators and lets in nobody else", "statement": "After every start a node has, for each validator of its ledger, the key file named after it with the validator's key, and its node stack is set up to let that key in; between starts the files of the validators follow the ledger: a new or promoted validator's key is there as soon as the transaction is committed, and so is a changed key; the node stack lets in those who hold the key of a validator and nobody else.", "quantifier": "all histories of NODE transactions and restarts, all names and keys, all conversions of keys, all numbers of authenticators", "why_tests_cant": "Whether a key is on disk, and whether the running stack knows it, depends on the order of promotions, demotions, key changes and restarts since the node was set up; tests look at one change in a fresh pool.", "anchors": ["stp_zmq/zstack.py:ZStack.initRemoteKeys", "stp_zmq/zstack.py:ZStack.setupAuth", "stp_zmq/authenticator.py:MultiZapAuthenticator", "plenum/common/stack_manager.py:TxnStackManager.parseLedgerForHaAndKeys", "plenum/common/stack_manager.py:TxnStackManager.addRemoteKeysFromLedger", "plenum/common/stack_manager.py:TxnStackManager.stackKeysChanged", "plenum/server/pool_manager.py:TxnPoolManager.onPoolMembershipChange"]}
{"id": "C106", "title": "The loop gives every part of a node its turn, and starts and stops each", "statement": "In every round of a running looper each prodable is given exactly one turn, in the order of the list, including those added during the round; none has a turn before being started; no two have the same name; an added name that is there already is refused; after a shutdown every prodable has been stopped once and none is given a turn any more; one prodable's failure does not keep the others from their turns.", "quantifier": "all lists of prodables, all behaviours of prodables in their turns (exceptions, adding and removing prodables, asking the loop to stop), all histories of calls", "why_tests_cant": "The list is changed by the very turns the loop gives while it walks over the list; tests run loops whose list does not change in a round and whose prodables do not raise.", "anchors": ["stp_core/loop/looper.py:Looper.prodAllOnce", "stp_core/loop/looper.py:Looper.add", "stp_core/loop/looper.py:Looper.removeProdable", "stp_core/loop/looper.py:Looper.hasProdable", "stp_core/loop/looper.py:Looper.runForever", "stp_core/loop/looper.py:Looper.shutdown"]}
{"id": "C107", "title": "The limiter grants actions by the granted ones of its window, and says how long to wait", "statement": "Every answer of the limiter depends only on the actions granted in the last window: it is granted if there is none, or if the last of them is longer ago than the delay for their number; refused calls do not count; by default no two actions are granted within one window, however often it is asked; who is refused is told a time after which the next try is granted.", "quantifier": "all histories of calls with a clock that does not go back, all windows, all delay functions", "why_tests_cant": "The limiter forgets old actions as it goes; that it forgets none too early and none too late has to hold for every sequence of times; tests use a few.", "anchors": ["plenum/common/throttler.py:Throttler.acquire", "plenum/common/throttler.py:Throttler._trimActionsLog", "plenum/common/throttler.py:Throttler._defaultDelayFunction"]}
{"id": "C108", "title": "Records written without field names are read back as they were", "statement": "A record written by the serializer without field names, and read with the same list of fields, has the same value for every field, None for the fields it had no value for, and no other names; two records with different values are written differently; a text written before fields were added at the end of the list is still read, with None for the new ones.", "quantifier": "all lists of fields, all records, all encoders and decoders of values", "why_tests_cant": "The text has only delimiters to tell values apart, so whether it is read back depends on every value and on the place of every field; tests read back a few records.", "anchors": ["common/serializers/compact_serializer.py:CompactSerializer.serialize", "common/serializers/compact_serializer.py:CompactSerializer.deserialize"]}
{"id": "C109", "title": "Messages about suspicious spikes are sent for values far from the expected one, and for no others", "statement": "When the watch is switched off nothing is sent and nothing is remembered; the first min_cnt measurements send nothing, nor does an expected value below the activity threshold; the expected value stays between the smallest and the largest value measured; after that a message is sent for exactly the measurements that differ from the expected value by more than the configured factor, and a level that does not change sends none; every notifier plugin is called, whichever of them fail, and the answer counts those that took the message.", "quantifier": "all configurations, all series of measurements, all sets of plugins and failures among them", "why_tests_cant": "The expected value and the bounds depend on the whole series so far; tests use a few series of constant values.", "anchors": ["plenum/server/notifier_plugin_manager.py:PluginManager.sendMessageUponSuspiciousSpike", "plenum/server/notifier_plugin_manager.py:PluginManager._sendMessage"]}
{"id": "C110", "title": "Version strings are read as what they say, written so that they are read back, and restricted as their kind promises", "statement": "A text is accepted as a version exactly if it has the form N.N.N[[.]{a|b|rc|dev}[.]N], and stands for the numbers and phase written in it; a version is written as a text that is read as the same version, so different versions are written differently; a plenum version is a release, a release candidate or a development version; a version of digits and dots has nothing but digits and dots.", "quantifier": "all texts and all versions", "why_tests_cant": "The texts are unbounded and the kinds of versions test numbers for being there by their truth value; tests try a list of texts.", "anchors": ["common/version.py:PEP440VersionFallback", "common/version.py:PEP440BasedVersion.full", "common/version.py:DigitDotVersion", "common/version.py:PlenumVersion"]}
