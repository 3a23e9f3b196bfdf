{"id": "C01", "title": "Transaction cache counts exactly the recently admitted ids", "statement": "For every history of CheckTransactions/CheckBlock calls, each call returns exactly the number of its transactions whose id was last admitted at most cacheDuration before the call (an id that is not so cached is admitted at the time of the call, and a hit does not refresh it; a repeated id within one call counts from its second occurrence).", "quantifier": "all cache durations, all call histories with a non-decreasing clock, all id lists", "why_tests_cant": "The answer depends on the whole call history and on the position of every admission relative to a moving window; tests sample a few sleeps.", "anchors": ["internal/p2p/transaction_cache.go:CheckTransactions", "internal/p2p/transaction_cache.go:CheckBlock", "internal/p2p/transaction_cache.go:pruneTransactions", "internal/p2p/transaction_cache.go:addTransactionItem"]}
{"id": "C02", "title": "A transaction id is admitted at most once per cache window, and every reported duplicate is justified", "statement": "Over any history, two observations of one id that are both reported as new are more than cacheDuration apart, and an observation reported as duplicate is preceded by an observation of the same id reported as new at most cacheDuration earlier.", "quantifier": "all call histories, all pairs of observations", "why_tests_cant": "Ranges over all pairs of calls in unbounded histories.", "anchors": ["internal/p2p/transaction_cache.go:CheckTransactions"]}
{"id": "C03", "title": "Transaction cache memory is bounded by the window and it never panics", "statement": "With a non-decreasing clock CheckTransactions never reaches its internal panic; after every call the cache holds no id twice, holds no id admitted more than cacheDuration ago, and its ordered items and its lookup set describe the same ids.", "quantifier": "all reachable cache states", "why_tests_cant": "The invariant must survive every interleaving of prune and insert; the panic is reachable only through histories.", "anchors": ["internal/p2p/transaction_cache.go:addTransactionItem", "internal/p2p/transaction_cache.go:pruneTransactions"]}
{"id": "C04", "title": "Fork watchdog reports a fork bomb exactly on the fourth distinct sibling", "statement": "Add(block) returns the fork-bomb error if and only if, counting this block, more than three distinct block ids have been added for the same height, signer and parent since the last Purge that covered that height; otherwise it returns nil.", "quantifier": "all sequences of Add and Purge calls", "why_tests_cant": "Depends on unbounded histories of interleaved Add/Purge.", "anchors": ["internal/p2p/fork_watchdog.go:Add", "internal/p2p/fork_watchdog.go:Purge"]}
{"id": "C05", "title": "Purge forgets exactly the heights at or below the irreversible height", "statement": "After Purge(lib), subsequent Adds behave as if nothing had ever been added at heights <= lib, and records of every height > lib are unchanged.", "quantifier": "all tracker states, all lib values", "why_tests_cant": "All map contents and iteration orders.", "anchors": ["internal/p2p/fork_watchdog.go:Purge"]}
{"id": "C06", "title": "An honest producer cannot be shut out by other peers' messages", "statement": "A block by a producer that signed at most one block for a given height and parent is never rejected as a fork bomb, whatever messages other peers send.", "quantifier": "all message histories by other peers", "why_tests_cant": "An adversarial history must be excluded; no test set does that.", "anchors": ["internal/p2p/fork_watchdog.go:Add", "internal/p2p/applicator.go:ApplyBlock"]}
{"id": "C07", "title": "A peer is disconnected exactly when its decayed score plus the new error reaches the threshold", "statement": "For every reported error of a peer whose address is known, a disconnect request for that peer is issued iff the host's decayed score plus the score of the error is at least ErrorScoreThreshold; errors of peers without a known address change nothing and disconnect nobody.", "quantifier": "all histories of errors, queries and times; all option values", "why_tests_cant": "History-dependent floating decay, all interleavings of errors and queries.", "anchors": ["internal/p2p/error_handler.go:handleError", "internal/p2p/error_handler.go:Start"]}
{"id": "C08", "title": "Connections are gated exactly by the reconnect threshold", "statement": "CanConnectAddr/InterceptAddrDial/InterceptAccept/InterceptSecured answer false iff the host of the address has a record whose decayed score is at least ErrorScoreReconnectThreshold; hosts without a record are always allowed, and a peer whose address is unknown is always allowed.", "quantifier": "all histories, all addresses", "why_tests_cant": "As C07.", "anchors": ["internal/p2p/error_handler.go:CanConnect", "internal/p2p/error_handler.go:CanConnectAddr", "internal/p2p/error_handler.go:handleCanConnect", "internal/p2p/error_handler.go:InterceptPeerDial", "internal/p2p/error_handler.go:InterceptAddrDial", "internal/p2p/error_handler.go:InterceptAccept", "internal/p2p/error_handler.go:InterceptSecured"]}
{"id": "C09", "title": "Error scores are per host: shared by all ports and peers of a host, independent between hosts", "statement": "Deleting from a history every error and query of other hosts does not change any answer about a host; two addresses with the same first component always get the same answer.", "quantifier": "all histories, all pairs of addresses", "why_tests_cant": "Non-interference over unbounded histories.", "anchors": ["internal/p2p/error_handler.go:handleError", "internal/p2p/error_handler.go:handleCanConnect", "internal/p2p/error_handler.go:handleGetPeerErrorScore"]}
{"id": "C10", "title": "A score never rises without an error", "statement": "Between errors, a host's score as seen by successive queries is non-increasing (float64 semantics, scores up to 2^53), and a zero elapsed time leaves it unchanged.", "quantifier": "all scores, elapsed times and query sequences", "why_tests_cant": "Floating-point rounding over all inputs.", "anchors": ["internal/p2p/error_handler.go:decayErrorScore"]}
{"id": "C11", "title": "The score follows the configured half-life, however often it is read", "statement": "A score is halved by one half-life of silence, a ban is lifted after the number of half-lives that brings the score below the reconnect threshold, and the number of times the score is read meanwhile makes no difference.", "quantifier": "all scores, half-lives, query schedules", "why_tests_cant": "All query schedules.", "anchors": ["internal/p2p/error_handler.go:decayErrorScore", "internal/p2p/error_handler.go:handleCanConnect"]}
{"id": "C12", "title": "Every error kind gets its configured score; defaults ban instantly exactly for the fatal kinds and never for local faults", "statement": "An error that wraps a known error kind scores exactly the option for that kind, any other error the unknown score. With default options one error disconnects a fresh peer iff it is one of chain-id mismatch, chain not connected, checkpoint mismatch, protocol mismatch, fork bomb; local RPC, local RPC timeout, serialization, process timeout and invalid nonce errors add nothing.", "quantifier": "all error values (any wrapping depth), all option values", "why_tests_cant": "Errors are open-ended trees of wraps; the switch order matters.", "anchors": ["internal/p2p/error_handler.go:getScoreForError", "internal/options/error_handler_options.go:NewPeerErrorHandlerOptions", "internal/p2perrors/errors.go"]}
{"id": "C13", "title": "More errors never lower a score (no wrap-around)", "statement": "Adding an error score never makes a host's score smaller, so a misbehaving host cannot get below the threshold by misbehaving more.", "quantifier": "all scores and option values", "why_tests_cant": "uint64 wrap is reachable only for extreme values tests do not visit.", "anchors": ["internal/p2p/error_handler.go:handleError"]}
{"id": "C14", "title": "Gossip is on exactly when connected and the head block is recent", "statement": "After every tick of the toggle, gossip is enabled iff there is at least one connection and the last head block time is at most 45 seconds behind the wall clock (head times up to the int64 nanosecond range).", "quantifier": "all sequences of head-time updates, connection counts and clock values", "why_tests_cant": "All event orders and values, including overflow of the millisecond to nanosecond conversion.", "anchors": ["internal/p2p/gossip_toggle.go:Start", "internal/p2p/gossip_toggle.go:UpdateHeadTime"]}
{"id": "C15", "title": "Gossip enable/disable calls alternate and IsEnabled reports the last completed one", "statement": "The sequence of EnableGossip calls the toggle makes strictly alternates starting with enable; between ticks IsEnabled equals the argument of the last call (false before any).", "quantifier": "all event sequences", "why_tests_cant": "All histories.", "anchors": ["internal/p2p/gossip_toggle.go:Start", "internal/p2p/gossip_toggle.go:IsEnabled"]}
{"id": "C16", "title": "Forced gossip modes win over everything else", "statement": "With AlwaysEnable gossip is enabled once at start and never disabled by the toggle; otherwise with AlwaysDisable it is never enabled. The command line sets exactly these options and enable wins if both are given.", "quantifier": "all option values, all subsequent events", "why_tests_cant": "Universal over later events.", "anchors": ["internal/p2p/gossip_toggle.go:Start", "internal/options/gossip_toggle_options.go:GossipToggleOptions", "cmd/koinos-p2p/main.go:main"]}
{"id": "C17", "title": "A topic manager has at most one live subscription and is enabled exactly while it has one", "statement": "For every sequence of Start and Stop calls on a GossipManager: subscribe and cancel strictly alternate, Enabled is true iff exactly one subscription is live, Start on an enabled manager and Stop on a disabled one change nothing, and Start on a manager whose topic could not be joined fails and changes nothing.", "quantifier": "all call sequences and subscribe failures", "why_tests_cant": "All sequences.", "anchors": ["internal/p2p/gossip.go:Start", "internal/p2p/gossip.go:Stop", "internal/p2p/gossip.go:NewGossipManager"]}
{"id": "C18", "title": "After gossip is disabled nothing is published until it is enabled again", "statement": "Once EnableGossip(false) has returned, PublishBlock/PublishTransaction publish nothing until EnableGossip(true) is called again.", "quantifier": "all schedules of the start-up goroutines, toggles and publishers", "why_tests_cant": "Needs a specific goroutine schedule.", "anchors": ["internal/p2p/gossip.go:EnableGossip", "internal/p2p/gossip.go:StartGossip", "internal/p2p/gossip.go:StopGossip", "internal/p2p/gossip.go:startBlockGossip", "internal/p2p/gossip.go:PublishBlock"]}
{"id": "C19", "title": "Stopping gossip never crashes the node", "statement": "No schedule of enabling/disabling gossip and of incoming messages leads to a send on a closed channel (which would panic the process).", "quantifier": "all schedules", "why_tests_cant": "The crash needs a precise interleaving of two goroutines.", "anchors": ["internal/p2p/gossip.go:readMessages", "internal/p2p/gossip.go:startBlockGossip", "internal/p2p/gossip.go:startTransactionGossip"]}
{"id": "C20", "title": "A message is published, and counted, exactly when its topic is enabled and it serializes", "statement": "PublishBlock/PublishTransaction hand the serialized message to the topic exactly once iff the topic is enabled at that moment and serialization succeeds; a serialization failure is returned and publishes nothing; when disabled nothing happens and nil is returned.", "quantifier": "all manager states and messages", "why_tests_cant": "All states.", "anchors": ["internal/p2p/gossip.go:PublishBlock", "internal/p2p/gossip.go:PublishTransaction", "internal/p2p/gossip.go:PublishMessage"]}
{"id": "C21", "title": "A gossiped block is accepted exactly when it is ours or the applicator applied it", "statement": "validateBlock returns true iff the message decodes and either it originates from this node or it has id, header and previous, is not below the last irreversible height and ApplyBlock returned nil for exactly the decoded block.", "quantifier": "all messages, peers, chain states and applicator results", "why_tests_cant": "All combinations.", "anchors": ["internal/p2p/gossip.go:validateBlock", "internal/p2p/gossip.go:applyBlock"]}
{"id": "C22", "title": "Malformed gossip never reaches the applicator, never crashes, and is charged to the forwarding peer", "statement": "A message that does not decode or lacks id/header/previous (block) or id (transaction) is rejected without calling the applicator, and exactly one deserialization error is reported against the peer it was received from.", "quantifier": "all byte strings", "why_tests_cant": "All inputs.", "anchors": ["internal/p2p/gossip.go:applyBlock", "internal/p2p/gossip.go:applyTransaction", "internal/p2p/gossip.go:validateBlock", "internal/p2p/gossip.go:validateTransaction"]}
{"id": "C23", "title": "Relaying a block that is already irreversible costs a peer nothing", "statement": "A gossiped block whose only defect is that its height is at or below the last irreversible height is dropped without any error being reported against a peer.", "quantifier": "all heights and LIB values, all applicator timings", "why_tests_cant": "Boundary and race between two copies of LIB.", "anchors": ["internal/p2p/gossip.go:validateBlock", "internal/p2p/gossip.go:applyBlock", "internal/p2p/applicator.go:handleNewBlock"]}
{"id": "C24", "title": "A fork bomb received by gossip is charged to the peer that published it, with the fork-bomb score", "statement": "If ApplyBlock rejects a gossiped block as a fork bomb, the reported peer is the signer of the pubsub message and the reported error scores as a fork bomb.", "quantifier": "all messages", "why_tests_cant": "Which error kind survives wrapping is a property of every path.", "anchors": ["internal/p2p/gossip.go:validateBlock", "internal/p2p/gossip.go:applyBlock"]}
{"id": "C25", "title": "Peers are not charged for failures of the local node", "statement": "If applying a block or transaction fails only because the local RPC failed or timed out, the score of the peer that sent it does not increase.", "quantifier": "all local RPC failures on the gossip and sync paths", "why_tests_cant": "All error paths.", "anchors": ["internal/p2p/gossip.go:applyBlock", "internal/p2p/gossip.go:applyTransaction", "internal/p2p/peer_connection.go:requestSyncBlocks"]}
{"id": "C26", "title": "A gossiped transaction is accepted exactly when it is ours or the applicator applied it; failures are charged by kind", "statement": "validateTransaction returns true iff the message decodes and is ours, or has an id and ApplyTransaction returned nil; otherwise exactly one error is reported against the forwarding peer, which is an invalid-nonce error (score 0 by default) if the applicator said invalid nonce and a transaction-application error otherwise.", "quantifier": "all messages and applicator results", "why_tests_cant": "All combinations.", "anchors": ["internal/p2p/gossip.go:validateTransaction", "internal/p2p/gossip.go:applyTransaction"]}
{"id": "C27", "title": "At most one application of a block id is in flight", "statement": "At no time are two submissions of blocks with the same id in progress, whatever the arrival order, duplicates, retries and results; and at most ApplicationJobs submissions (blocks and transactions together) run at the same time.", "quantifier": "all schedules of callers, goroutines, workers, broadcasts and RPC results", "why_tests_cant": "All interleavings.", "anchors": ["internal/p2p/applicator.go:handleTryBlockApplication", "internal/p2p/applicator.go:handleBlockStatus", "internal/p2p/applicator.go:Start"]}
{"id": "C28", "title": "The pool of waiting blocks never exceeds MaxPendingBlocks", "statement": "At every moment the number of distinct blocks held is at most MaxPendingBlocks, and a block arriving at a full pool is answered with the max-pending-blocks error.", "quantifier": "all reachable states", "why_tests_cant": "All histories.", "anchors": ["internal/p2p/applicator.go:handleNewBlock", "internal/p2p/applicator.go:addBlockEntry", "internal/options/applicator_options.go:MaxPendingBlocks"]}
{"id": "C29", "title": "Held blocks are above LIB and within the height window", "statement": "At every moment each held block has height greater than the last irreversible height known to the applicator and at most MaxHeightDelta above the highest accepted block; blocks outside are answered immediately with the corresponding error.", "quantifier": "all reachable states (heights below the uint64 limit)", "why_tests_cant": "All histories.", "anchors": ["internal/p2p/applicator.go:handleNewBlock", "internal/p2p/applicator.go:handleForkHeads"]}
{"id": "C30", "title": "The lookup indexes of the block pool always agree", "statement": "At every moment the by-parent and by-height indexes contain exactly the held blocks, with no empty or dangling entries.", "quantifier": "all reachable states", "why_tests_cant": "All histories.", "anchors": ["internal/p2p/applicator.go:addBlockEntry", "internal/p2p/applicator.go:removeBlockEntry"]}
{"id": "C31", "title": "Every ApplyBlock call gets at most one answer, none is lost, and answering never panics", "statement": "No call is answered twice (so no send on a closed channel can occur); until shutdown every call that has not been answered is still queued or attached to exactly one held block.", "quantifier": "all schedules", "why_tests_cant": "All interleavings.", "anchors": ["internal/p2p/applicator.go:ApplyBlock", "internal/p2p/applicator.go:removeBlockEntry", "internal/p2p/applicator.go:handleNewBlock"]}
{"id": "C32", "title": "A block at or below the irreversible height is never submitted to the chain", "statement": "Whenever the applicator submits a block to the chain, its height is greater than the LIB known to the applicator at that moment.", "quantifier": "all schedules", "why_tests_cant": "Race between LIB updates and workers.", "anchors": ["internal/p2p/applicator.go:handleApplyBlock"]}
{"id": "C33", "title": "ApplyBlock returns success only for a block the chain accepted", "statement": "If ApplyBlock returns nil then the chain accepted (RPC success) a block with that id.", "quantifier": "all schedules, all block timestamps", "why_tests_cant": "Needs the delay-timeout schedule.", "anchors": ["internal/p2p/applicator.go:ApplyBlock", "internal/p2p/applicator.go:handleTryBlockApplication", "internal/p2p/applicator.go:handleBlockStatus"]}
{"id": "C34", "title": "Every error returned by ApplyBlock is accounted for; transient chain errors are never returned", "statement": "An error returned by ApplyBlock is the caller's timeout, a fork bomb, max height, max pending, irreversibility, shutdown, or an error the chain returned for that block id; unknown-previous-block and block-state errors are never returned to the caller.", "quantifier": "all schedules and RPC results", "why_tests_cant": "All paths.", "anchors": ["internal/p2p/applicator.go:ApplyBlock", "internal/p2p/applicator.go:handleBlockStatus"]}
{"id": "C35", "title": "A caller is told the fate of its own block", "statement": "The result ApplyBlock returns is about the very block passed in, not about a different block that carries the same id.", "quantifier": "all concurrent callers and block contents", "why_tests_cant": "Needs two callers with colliding ids.", "anchors": ["internal/p2p/applicator.go:addBlockEntry", "internal/p2p/applicator.go:removeBlockEntry"]}
{"id": "C36", "title": "Children waiting for a parent are retried as soon as the parent is accepted", "statement": "When the applicator learns that a block was accepted (its own submission succeeded, a block broadcast, or a fork head), an application attempt is scheduled for every held block naming it as parent; blocks that failed for an unknown parent stay held until then or until irreversibility passes them.", "quantifier": "all reachable states", "why_tests_cant": "All histories.", "anchors": ["internal/p2p/applicator.go:checkBlockChildren", "internal/p2p/applicator.go:handleBlockStatus", "internal/p2p/applicator.go:handleBlockBroadcast", "internal/p2p/applicator.go:handleForkHeads"]}
{"id": "C37", "title": "No lost wake-up: an accepted parent never leaves a child stranded", "statement": "After the parent of a held block has been accepted and reported, the child is always in flight or has an attempt scheduled until it is answered.", "quantifier": "all schedules", "why_tests_cant": "Needs a precise race between the child's failure and the parent's success.", "anchors": ["internal/p2p/applicator.go:handleTryBlockApplication", "internal/p2p/applicator.go:checkBlockChildren"]}
{"id": "C38", "title": "The highest known height is the maximum of the accepted heights", "statement": "The height window is computed from the maximum of the start-up head height and all block broadcasts, and so never moves backwards.", "quantifier": "all histories", "why_tests_cant": "All histories.", "anchors": ["internal/p2p/applicator.go:handleBlockBroadcast", "internal/p2p/applicator.go:NewApplicator"]}
{"id": "C39", "title": "The irreversible height used by the applicator never moves backwards", "statement": "The LIB used to reject blocks is non-decreasing over time and equals the highest LIB announced.", "quantifier": "all orders in which fork-head updates are delivered", "why_tests_cant": "Depends on goroutine scheduling of updates.", "anchors": ["internal/p2p/applicator.go:handleForkHeads", "internal/node/node.go:handleForkUpdate"]}
{"id": "C40", "title": "Advancing irreversibility releases every block it overtakes", "statement": "When the LIB advances, processing terminates and every held block at or below the new LIB is removed and all its callers are answered with the irreversibility error; all other held blocks stay.", "quantifier": "all pools, all LIB jumps", "why_tests_cant": "All states and the uint64 loop bound.", "anchors": ["internal/p2p/applicator.go:handleForkHeads"]}
{"id": "C41", "title": "Blocks from the future are not submitted early", "statement": "A block is never submitted to the chain more than DelayThreshold before its timestamp.", "quantifier": "all timestamps and schedules", "why_tests_cant": "All timestamps (millisecond part).", "anchors": ["internal/p2p/applicator.go:handleTryBlockApplication"]}
{"id": "C42", "title": "A transaction id is submitted to the chain at most once per cache window", "statement": "Over any schedule of ApplyTransaction calls and block broadcasts, two submissions of the same transaction id are more than the cache duration apart, and a transaction in a recently accepted block is not submitted.", "quantifier": "all schedules and worker counts", "why_tests_cant": "All interleavings of workers sharing the cache.", "anchors": ["internal/p2p/applicator.go:handleApplyTransaction", "internal/p2p/applicator.go:ApplyTransaction", "internal/p2p/applicator.go:handleBlockBroadcast"]}
{"id": "C43", "title": "ApplyTransaction returns success only for a transaction the chain accepted", "statement": "If ApplyTransaction returns nil, the chain accepted the transaction or it was part of an accepted block.", "quantifier": "all call histories", "why_tests_cant": "Needs a history of a failed and a repeated call.", "anchors": ["internal/p2p/applicator.go:handleApplyTransaction"]}
{"id": "C44", "title": "An accepted block is not submitted again", "statement": "Once the chain has accepted a block submitted by the applicator and nobody submits it anew, it is not submitted a second time.", "quantifier": "all schedules", "why_tests_cant": "Needs duplicate attempts queued.", "anchors": ["internal/p2p/applicator.go:tryBlockApplication", "internal/p2p/applicator.go:handleTryBlockApplication"]}
{"id": "C45", "title": "The handshake passes exactly for peers on our chain that have all our checkpoints", "statement": "handshake succeeds iff the protocol version is available or missing, both chain ids are obtained and equal, the peer's head is obtained and for every checkpoint the peer reports exactly our block id at that height; otherwise the error returned is the documented one for the first failing check.", "quantifier": "all peer and local responses, all checkpoint lists", "why_tests_cant": "All adversarial responses.", "anchors": ["internal/p2p/peer_connection.go:handshake"]}
{"id": "C46", "title": "No block is requested or applied from a peer whose chain does not contain our irreversible block", "statement": "In every sync round, if our LIB height is above 0, blocks are requested from the peer only after the peer reported exactly our LIB id as ancestor of its head, and only blocks so obtained are passed to the applicator.", "quantifier": "all peer responses", "why_tests_cant": "All adversarial responses.", "anchors": ["internal/p2p/peer_connection.go:requestSyncBlocks"]}
{"id": "C47", "title": "Sync requests the right range, never more than a batch", "statement": "A sync round requests at most one range; it starts at LIB+1 and its length is the smaller of the distance to the peer's head and the batch size (batch sizes below 2^32); nothing is requested from a peer at or below our LIB or whose head we know.", "quantifier": "all heights and batch sizes", "why_tests_cant": "uint64/uint32 arithmetic.", "anchors": ["internal/p2p/peer_connection.go:requestSyncBlocks"]}
{"id": "C48", "title": "Received blocks are applied in order and application stops at the first real failure", "statement": "The blocks passed to the applicator in a sync round are a prefix of the received blocks in order; a block is passed only if every earlier one was applied or was already irreversible, and the round reports success only if all were passed.", "quantifier": "all block lists and applicator results", "why_tests_cant": "All result sequences.", "anchors": ["internal/p2p/peer_connection.go:requestSyncBlocks"]}
{"id": "C49", "title": "The synced flag is right", "statement": "After a successful round the connection is considered synced iff the peer is behind our LIB, its head is known, or the last received block is less than SyncedBlockDelta below the peer's head; the pause before the next round is SyncedSleepTime if synced and one second otherwise.", "quantifier": "all responses", "why_tests_cant": "uint64 subtraction on untrusted heights.", "anchors": ["internal/p2p/peer_connection.go:requestSyncBlocks", "internal/p2p/peer_connection.go:connectionLoop"]}
{"id": "C50", "title": "No response of a remote peer can crash the node during sync", "statement": "For every possible response of the peer (heights, ids, block contents), handshake and sync rounds end normally or with an error, never with a panic.", "quantifier": "all peer responses", "why_tests_cant": "Adversarial inputs.", "anchors": ["internal/p2p/peer_connection.go:requestSyncBlocks", "internal/p2p/fork_watchdog.go:Add", "internal/rpc/peer_rpc.go:GetBlocks"]}
{"id": "C51", "title": "Every failed handshake or sync round is reported exactly once against that peer, and nothing else is", "statement": "For any number of rounds, the errors reported are exactly the errors of the failed rounds, in order, with this peer's id; sync rounds start only after a successful handshake and nothing happens after cancellation.", "quantifier": "all response histories, any number of rounds", "why_tests_cant": "Unbounded loops.", "anchors": ["internal/p2p/peer_connection.go:Start", "internal/p2p/peer_connection.go:connectionLoop"]}
{"id": "C52", "title": "Sync failures keep the error kinds the scoring relies on", "statement": "A sync round that fails in block application returns the local-RPC-timeout and fork-bomb errors unchanged (so they score as such) and any other failure as a block-application error; irreversible blocks are skipped and never fail a round.", "quantifier": "all applicator errors", "why_tests_cant": "All error values.", "anchors": ["internal/p2p/peer_connection.go:requestSyncBlocks"]}
{"id": "C53", "title": "A peer is reported connected iff its last network event was a connect", "statement": "IsConnected/GetPeerAddress/GetNumConnections reflect exactly the set of peers whose most recent event is Connected; the address is the one of the connection that started the current session.", "quantifier": "all event histories", "why_tests_cant": "All histories.", "anchors": ["internal/p2p/connection_manager.go:handleConnected", "internal/p2p/connection_manager.go:handleDisconnected", "internal/p2p/connection_manager.go:handleGetNumConnections", "internal/p2p/connection_manager.go:handleIsConnected", "internal/p2p/connection_manager.go:handleGetPeerAddress"]}
{"id": "C54", "title": "A peer with a live connection is considered connected", "statement": "As long as at least one network connection to a peer is open, the peer is counted and synced with.", "quantifier": "all sequences of opening and closing connections", "why_tests_cant": "Needs parallel connections to one peer.", "anchors": ["internal/p2p/connection_manager.go:handleConnected", "internal/p2p/connection_manager.go:handleDisconnected"]}
{"id": "C55", "title": "One sync session per peer, cancelled exactly once", "statement": "At most one session per peer is running; each session started is cancelled exactly once, when its peer disconnects or at shutdown, and none survives shutdown.", "quantifier": "all event histories", "why_tests_cant": "All histories.", "anchors": ["internal/p2p/connection_manager.go:handleConnected", "internal/p2p/connection_manager.go:handleDisconnected", "internal/p2p/connection_manager.go:managerLoop"]}
{"id": "C56", "title": "The connection manager starts whatever peers are already connected", "statement": "After Start the manager begins serving events and queries, also when the host already has connections, which it then adopts.", "quantifier": "all sets of pre-existing connections, all schedules", "why_tests_cant": "Deadlock depends on start-up timing.", "anchors": ["internal/p2p/connection_manager.go:Start", "internal/p2p/connection_manager.go:managerLoop"]}
{"id": "C57", "title": "Seeds are redialled whenever disconnected, and redialling stops at shutdown", "statement": "In every round exactly the initial peers that are not connected are dialled; after cancellation the loop terminates.", "quantifier": "all connection states and histories", "why_tests_cant": "Unbounded loop.", "anchors": ["internal/p2p/connection_manager.go:connectInitialPeers"]}
{"id": "C58", "title": "Protocol version lookup is exact", "statement": "GetProtocolVersion returns a version only if the stored string starts with koinos/p2p/ and its last component parses, returns mismatch for any other non-empty or non-string value, and missing only after the timeout; the string this node announces is accepted as 1.0.0.", "quantifier": "all stored values, over time", "why_tests_cant": "All strings and timings.", "anchors": ["internal/p2p/connection_manager.go:GetProtocolVersion", "internal/p2p/connection_manager.go:readProtocolVersion", "internal/p2p/protocol_version.go:KoinosProtocolVersionString"]}
{"id": "C59", "title": "Local RPC outcomes are classified exactly", "statement": "Each local RPC returns a response only if the call succeeded and the response variant matches; a deadline is reported as local RPC timeout, other transport failures and error or unexpected responses as local RPC error, undecodable replies as deserialization error; for ApplyBlock/ApplyTransaction the first error detail with a mapped chain error code decides the error kind.", "quantifier": "all transport results, replies and detail lists", "why_tests_cant": "All replies.", "anchors": ["internal/rpc/koinos_rpc.go:ApplyBlock", "internal/rpc/koinos_rpc.go:ApplyTransaction", "internal/rpc/koinos_rpc.go:GetHeadBlock", "internal/rpc/koinos_rpc.go:blockErrorMap"]}
{"id": "C60", "title": "No oversized request is sent", "statement": "No RPC request larger than 536870912 bytes is ever handed to the message queue; an oversized request fails without being sent.", "quantifier": "all requests", "why_tests_cant": "Sizes tests cannot allocate.", "anchors": ["internal/rpc/koinos_rpc.go:checkMessageSize"]}
{"id": "C61", "title": "Peer RPC returns what the remote node has, and exactly as many blocks as asked", "statement": "GetBlocks returns without error only if exactly numBlocks blocks were received and all decode; composed with the remote service it returns exactly the remote block store's blocks in order; GetAncestorBlockID returns an id only if the remote store returned exactly one block.", "quantifier": "all remote stores and requests", "why_tests_cant": "All responses.", "anchors": ["internal/rpc/peer_rpc.go:GetBlocks", "internal/rpc/peer_rpc.go:GetAncestorBlockID", "internal/rpc/peer_rpc_service.go:GetBlocks", "internal/rpc/peer_rpc_service.go:GetAncestorBlockID"]}
{"id": "C62", "title": "Every RPC request to the node gets exactly one well-formed response", "statement": "For every byte string handleRPC produces a response: the gossip status if that was asked, an error response otherwise (malformed, nil or unknown request); the status equals IsEnabled.", "quantifier": "all byte strings", "why_tests_cant": "All inputs.", "anchors": ["internal/node/node.go:handleRPC", "internal/node/node.go:handleRequest"]}
{"id": "C63", "title": "Gossip message ids depend only on content", "statement": "On the block and transaction topics two messages have the same id iff the SHA-256 of their data is equal, regardless of sender and sequence number; other topics use the default id.", "quantifier": "all messages", "why_tests_cant": "Injectivity over all hashes.", "anchors": ["internal/node/node.go:generateMessageID"]}
{"id": "C64", "title": "The node identity is a function of the seed", "statement": "The same non-empty seed always yields the same generator seed, which is the first eight bytes of the hash read big-endian as a signed 64-bit integer; distinct prefixes give distinct generator seeds; an empty seed draws a fresh random one.", "quantifier": "all seeds", "why_tests_cant": "All strings.", "anchors": ["internal/node/node.go:seedStringToInt64", "internal/node/node.go:generatePrivateKey"]}
{"id": "C65", "title": "Broadcasts from the chain have exactly the documented effects", "statement": "A well-formed block broadcast updates the head time iff it is a head block, is passed to the applicator once and published iff gossip is enabled; a transaction broadcast is only published; a fork update is passed to the applicator and becomes the LIB; malformed broadcasts have no effect.", "quantifier": "all broadcasts", "why_tests_cant": "All inputs.", "anchors": ["internal/node/node.go:handleBlockBroadcast", "internal/node/node.go:handleTransactionBroadcast", "internal/node/node.go:handleForkUpdate", "internal/node/node.go:GetLastIrreversibleBlock"]}
{"id": "C66", "title": "A peer that may not reconnect is also ignored by gossip", "statement": "The gossip score a peer gets is below the graylist threshold exactly when its error score exceeds the reconnect threshold by more than one point; hence a gossip-graylisted peer is never allowed to connect.", "quantifier": "all scores", "why_tests_cant": "All values.", "anchors": ["internal/node/node.go:NewKoinosP2PNode", "internal/p2p/error_handler.go:GetPeerErrorScore"]}
{"id": "C67", "title": "A malformed checkpoint option is rejected", "statement": "Start-up either takes every checkpoint option of the form height:hexid at face value or refuses to start; no malformed option is turned into a checkpoint.", "quantifier": "all option strings", "why_tests_cant": "All strings.", "anchors": ["cmd/koinos-p2p/main.go:main"]}
{"id": "C68", "title": "API calls return by their deadline", "statement": "ApplyBlock, ApplyTransaction, CanConnectAddr, GetPeerErrorScore, GetPeerAddress, GetNumConnections and IsConnected return when their context expires, also when the serving loop is not running.", "quantifier": "all schedules, all numbers of concurrent callers", "why_tests_cant": "Depends on buffer occupancy and shutdown timing.", "anchors": ["internal/p2p/applicator.go:ApplyBlock", "internal/p2p/applicator.go:ApplyTransaction", "internal/p2p/error_handler.go:CanConnectAddr", "internal/p2p/error_handler.go:GetPeerErrorScore", "internal/p2p/connection_manager.go:GetPeerAddress", "internal/p2p/connection_manager.go:GetNumConnections", "internal/p2p/connection_manager.go:IsConnected"]}
{"id": "C69", "title": "Fork bombs are stopped when ApplyBlock is called", "statement": "A call of ApplyBlock returns the fork-bomb error at once and leaves nothing behind (its block is not held, not scheduled and not submitted) exactly when the block is the fourth or later distinct one of its height, signer and parent passed to ApplyBlock since a LIB at or above that height was processed; otherwise the call goes on.", "quantifier": "all schedules, all blocks", "why_tests_cant": "The watchdog memory depends on the whole history of calls and LIB updates, in any order.", "anchors": ["internal/p2p/applicator.go:ApplyBlock", "internal/p2p/applicator.go:handleForkHeads"]}
{"id": "C70", "title": "A cancelled peer session ends", "statement": "Once the context of a peer session is cancelled (with positive retry and sleep times), the session makes only finitely many further steps whatever is answered, and comes to rest with its loop ended and no goroutine waiting to report an error.", "quantifier": "all schedules, all answers, any moment of cancellation", "why_tests_cant": "Goroutine leaks depend on the moment of cancellation relative to rounds, pauses and reports.", "anchors": ["internal/p2p/peer_connection.go:Start", "internal/p2p/peer_connection.go:connectionLoop"]}
{"id": "C71", "title": "Every request of a peer session carries its configured deadline", "statement": "Each call a handshake or sync round makes to the local node, the applicator or the remote peer is given exactly the time-out configured for that kind of call.", "quantifier": "all options, all answers", "why_tests_cant": "All paths through the conversation.", "anchors": ["internal/p2p/peer_connection.go:handshake", "internal/p2p/peer_connection.go:requestSyncBlocks", "internal/options/peer_connection_options.go:NewPeerConnectionOptions"]}
{"id": "C72", "title": "A failed handshake bans a peer at once only for a wrong answer", "statement": "If the error of a failed handshake alone reaches the score at which the peer is disconnected, the peer has answered with a wrong version, chain id or checkpoint ancestor.", "quantifier": "all answers and errors", "why_tests_cant": "Error kinds are composed over two components and every failing call.", "anchors": ["internal/p2p/peer_connection.go:handshake", "internal/p2p/error_handler.go:getScoreForError"]}
{"id": "C73", "title": "A caller that gives up does not stop the connection manager", "statement": "After a call of GetPeerAddress, GetNumConnections or IsConnected has returned because its context ended, the connection manager goes on handling connects and disconnects and answering other calls.", "quantifier": "all schedules of callers, notifications and expiring contexts", "why_tests_cant": "The stall needs a caller that gives up between the two halves of a rendezvous.", "anchors": ["internal/p2p/connection_manager.go:handleGetPeerAddress", "internal/p2p/connection_manager.go:handleGetNumConnections", "internal/p2p/connection_manager.go:handleIsConnected", "internal/p2p/connection_manager.go:managerLoop"]}
{"id": "C74", "title": "Concurrent gate calls get up-to-date answers", "statement": "Whatever calls of CanConnect, CanConnectAddr, GetPeerErrorScore and error reports run at the same time, each call that returns with its context alive returns the answer for its own address in one common sequential history of all reports and queries; each query is answered at most once, and each report is charged exactly once or still waits.", "quantifier": "all schedules of callers, reports, expiring contexts and shutdown", "why_tests_cant": "Interleavings of callers and reports.", "anchors": ["internal/p2p/error_handler.go:CanConnect", "internal/p2p/error_handler.go:CanConnectAddr", "internal/p2p/error_handler.go:GetPeerErrorScore", "internal/p2p/error_handler.go:Start"]}
{"id": "C75", "title": "A caller that gives up does not stop the error handler", "statement": "Once started with its address provider set, the error handler serves until its context ends; as long as it serves, every query handed over to it gets its answer after at most ten services, every waiting report can be taken at once, and every call can be brought to its end, whatever happened to other callers.", "quantifier": "all schedules of callers, reports and expiring contexts", "why_tests_cant": "Depends on the occupancy of channels at the moment a caller gives up.", "anchors": ["internal/p2p/error_handler.go:CanConnectAddr", "internal/p2p/error_handler.go:GetPeerErrorScore", "internal/p2p/error_handler.go:Start"]}
{"id": "C76", "title": "The connection gater works from the moment it is given to the host", "statement": "A gater callback made at any time after the error handler was constructed (it is passed to the host before its address provider is set and before it is started) returns an answer and does not panic.", "quantifier": "all schedules", "why_tests_cant": "A race at start-up.", "anchors": ["internal/p2p/error_handler.go:InterceptPeerDial", "internal/p2p/error_handler.go:InterceptAccept", "internal/p2p/error_handler.go:SetPeerAddressProvider", "internal/node/node.go:NewKoinosP2PNode"]}
{"id": "C77", "title": "A sync round with a healthy peer transfers exactly the next blocks", "statement": "If the peer has a head above our last irreversible block that we do not know, our last irreversible block is on its chain, its block store has the next blocks (at most a batch) and our node accepts them, then a sync round ends without error and passes exactly these blocks, in order and with the same content, to the applicator.", "quantifier": "all stores, heads, batch sizes from 1 to 2^32-1 and block contents", "why_tests_cant": "The composition of client, service, two stores and the round over all sizes.", "anchors": ["internal/p2p/peer_connection.go:requestSyncBlocks", "internal/rpc/peer_rpc.go:GetBlocks", "internal/rpc/peer_rpc_service.go:GetBlocks", "internal/rpc/koinos_rpc.go:GetBlocksByHeight"]}
{"id": "C78", "title": "Different seeds give different identities", "statement": "Two seeds whose hashes differ in the first eight bytes give different private keys.", "quantifier": "all seeds", "why_tests_cant": "A birthday collision over 2^31 generator states is not found by tests.", "anchors": ["internal/node/node.go:generatePrivateKey", "internal/node/node.go:seedStringToInt64"]}
{"id": "C79", "title": "The last irreversible block is the latest announced and never goes back", "statement": "GetLastIrreversibleBlock returns the last irreversible block announced last, by a fork update or by the answer to the query at start-up; its height never decreases.", "quantifier": "all interleavings of start-up and broadcasts", "why_tests_cant": "Start-up races with the broadcasts, which are received before the node is started.", "anchors": ["internal/node/node.go:GetLastIrreversibleBlock", "internal/node/node.go:handleForkUpdate", "internal/node/node.go:Start"]}
{"id": "C80", "title": "Announced head blocks and fork updates take effect in the order of arrival", "statement": "Once all broadcasts have been delivered, the head time in effect is that of the head block announced last, and the applicator has seen the fork updates in the order in which they arrived.", "quantifier": "all schedules of broadcasts and of the goroutines they start", "why_tests_cant": "Depends on the order in which goroutines run.", "anchors": ["internal/node/node.go:handleBlockBroadcast", "internal/node/node.go:handleForkUpdate"]}
{"id": "C81", "title": "A malformed peer address does not keep the node from starting", "statement": "When some of the given peer addresses are malformed, start-up warns about these and uses the others.", "quantifier": "all lists of addresses", "why_tests_cant": "All lists of strings.", "anchors": ["cmd/koinos-p2p/main.go:main"]}
{"id": "C82", "title": "The error handler and the connection manager never deadlock each other", "statement": "In a node started without connections, as long as its context has not ended, whatever notifications, error reports and calls have been made: the work the two components do by themselves comes to an end, and only when every notification is handled, every call of GetPeerAddress, GetNumConnections, IsConnected, CanConnect, CanConnectAddr and GetPeerErrorScore has returned and every report has been charged or dropped.", "quantifier": "all schedules and all orders in which the internal steps may run", "why_tests_cant": "The handler waits for the manager inside its own loop; deadlocks depend on the interleaving.", "anchors": ["internal/node/node.go:NewKoinosP2PNode", "internal/node/node.go:Start", "internal/p2p/error_handler.go:Start", "internal/p2p/error_handler.go:handleError", "internal/p2p/connection_manager.go:managerLoop", "internal/p2p/connection_manager.go:GetPeerAddress"]}
{"id": "C83", "title": "A report is charged to the address the peer is connected from", "statement": "An error reported for a peer is charged to the host of the connection that began the peer's session, as of a moment between the taking and the charging of the report; it is dropped only if the peer was not connected at such a moment or the node is stopping, and nothing else is charged.", "quantifier": "all schedules of the error handler and the connection manager", "why_tests_cant": "Connections change while the report is being handled.", "anchors": ["internal/p2p/error_handler.go:handleError", "internal/p2p/connection_manager.go:GetPeerAddress", "internal/p2p/connection_manager.go:handleConnected", "internal/p2p/connection_manager.go:handleDisconnected"]}
{"id": "C84", "title": "A gate or score call about a peer is about the address it is connected from", "statement": "CanConnect and GetPeerErrorScore for a peer, when they return with their context alive, give the answer for the address the peer was connected from at a moment of the call; or the peer was not connected at such a moment, and the answer is that of a peer without errors.", "quantifier": "all schedules of the error handler and the connection manager", "why_tests_cant": "Connections and scores change during the call.", "anchors": ["internal/p2p/error_handler.go:CanConnect", "internal/p2p/error_handler.go:GetPeerErrorScore", "internal/p2p/error_handler.go:InterceptPeerDial", "internal/p2p/connection_manager.go:GetPeerAddress"]}
{"id": "C85", "title": "Peer errors are handled also when peers were connected before the start", "statement": "As C82 for the reports, also when the host already has connections when the node starts the connection manager.", "quantifier": "all sets of pre-existing connections, all schedules", "why_tests_cant": "A deadlock between two components that depends on start-up timing.", "anchors": ["internal/node/node.go:Start", "internal/p2p/connection_manager.go:Start", "internal/p2p/error_handler.go:handleError"]}
{"id": "C86", "title": "Gossip follows the connections and the head block", "statement": "Without gossip flags, each tick of the gossip toggle that decides before the node is stopped leaves gossip enabled exactly if, at some moment of the tick, some peer was connected according to the network, and the head time the node was last told was at most 45 seconds before the clock reading. If no peer was connected when the node was started and no context ends, every tick completes.", "quantifier": "all interleavings of the toggle, the connection manager, its other callers and the network", "why_tests_cant": "The answer about connections travels through a channel while the network changes.", "anchors": ["internal/p2p/gossip_toggle.go:Start", "internal/p2p/connection_manager.go:GetNumConnections", "internal/p2p/connection_manager.go:managerLoop", "internal/p2p/gossip.go:EnableGossip"]}
{"id": "C87", "title": "The announced gossip status is the actual one", "statement": "Until the node is closed: whenever the toggle is between two ticks, the status last delivered to the other services is what IsEnabled tells; and announcements alternate, beginning with \"enabled\".", "quantifier": "all schedules, all outcomes of the broadcasts", "why_tests_cant": "Failing broadcasts and long histories.", "anchors": ["internal/p2p/gossip.go:EnableGossip", "internal/p2p/gossip_toggle.go:Start", "internal/rpc/koinos_rpc.go:BroadcastGossipStatus"]}
{"id": "C88", "title": "Close turns gossip off for good", "statement": "Once Close has returned, no block or transaction is handed to a gossip topic any more, IsEnabled is false, and the last status announced is \"disabled\".", "quantifier": "all interleavings of Close with the toggle and the goroutines it started", "why_tests_cant": "Close races with a tick of the toggle and with goroutines that have not begun.", "anchors": ["internal/node/node.go:Close", "internal/p2p/gossip.go:StopGossip", "internal/p2p/gossip.go:StartGossip", "internal/p2p/gossip_toggle.go:Start"]}
{"id": "C89", "title": "Turning gossip on and off never crashes the node", "statement": "No sequence of calls of EnableGossip by the toggle and by Close, however interleaved, crashes the process.", "quantifier": "all interleavings of the steps of the two callers", "why_tests_cant": "A data race on a pointer that is tested, used and cleared in separate steps.", "anchors": ["internal/p2p/gossip.go:StopGossip", "internal/p2p/gossip.go:EnableGossip", "internal/node/node.go:Close"]}
{"id": "C90", "title": "Gossip can be enabled whatever was connected at start-up", "statement": "Without gossip flags, a node can come to have gossip enabled, whatever connections the host had when the connection manager was started.", "quantifier": "all sets of pre-existing connections, all schedules", "why_tests_cant": "A deadlock that depends on start-up timing and shows in another component.", "anchors": ["internal/p2p/gossip_toggle.go:Start", "internal/p2p/connection_manager.go:Start", "internal/p2p/connection_manager.go:GetNumConnections"]}
{"id": "C91", "title": "Stopping the node ends its loops", "statement": "Once the context of the node is done, the loops of the gossip toggle, of the error handler and of the connection manager can end, in whatever order the scheduler runs them.", "quantifier": "all schedules", "why_tests_cant": "Depends on which of several goroutines sees the end of the context first.", "anchors": ["internal/p2p/gossip_toggle.go:Start", "internal/p2p/error_handler.go:handleError", "internal/p2p/connection_manager.go:managerLoop", "internal/p2p/connection_manager.go:GetNumConnections", "internal/p2p/connection_manager.go:GetPeerAddress"]}
{"id": "C92", "title": "A node catches up with an honest peer", "statement": "While connected to a peer on the same chain that answers truthfully, and with local services that accept the blocks of this chain in order, no handshake or sync round fails and nobody is charged, each completed round brings at least one more block until the node has what the peer had, and each round takes a bounded number of steps: the node comes to have the block that was the head of the peer when the session began.", "quantifier": "all chains, all rules by which irreversibility follows the head, all options, all schedules, any growth of both chains meanwhile", "why_tests_cant": "Progress over unboundedly many rounds, depending on how the batch size relates to irreversibility.", "anchors": ["internal/p2p/peer_connection.go:requestSyncBlocks", "internal/p2p/peer_connection.go:connectionLoop", "internal/p2p/peer_connection.go:handshake", "internal/p2p/peer_connection.go:Start"]}
{"id": "C93", "title": "Blocks handed over in any order are all applied", "statement": "When blocks that form a chain on top of a block the chain service has are passed to ApplyBlock in any order, then, once nothing is under way any more, none of them that is recent (younger than ForceChildRequestThreshold), or that was submitted only when the chain had its parent, is left waiting although the chain has announced its parent: all of them were accepted by the chain and all calls were answered with success, provided the chain answers \"unknown previous block\" only when that is true.", "quantifier": "all orders and repetitions of the calls, all interleavings, all sets of other blocks", "why_tests_cant": "Which of several wake-ups reaches a waiting block depends on the interleaving of attempts, broadcasts and arrivals.", "anchors": ["internal/p2p/applicator.go:addBlockEntry", "internal/p2p/applicator.go:handleTryBlockApplication", "internal/p2p/applicator.go:checkBlockChildren", "internal/p2p/applicator.go:handleBlockStatus", "internal/p2p/applicator.go:handleForkHeads"]}
{"id": "C94", "title": "A peer that reaches the error threshold is cut off", "statement": "When an error brings the score of a peer's host to the threshold while the node is running, every connection the peer has at that moment is closed and every sync session with it is cancelled, once nothing is left to do; the node does come to that point by itself after finitely many of its own steps; and the node closes no connection of a peer for which the threshold was not reached.", "quantifier": "all interleavings of the error handler, the connection manager, the closing loop, the gates and the network's notifications; any number of peers, connections and reports", "why_tests_cant": "The decision, the closing and the end of the session are made by different goroutines linked by channels.", "anchors": ["internal/p2p/error_handler.go:handleError", "internal/node/node.go:Start", "internal/p2p/connection_manager.go:handleDisconnected", "internal/p2p/connection_manager.go:managerLoop"]}
{"id": "C95", "title": "What a connected peer does wrong counts", "statement": "If an error of a connected peer is reported and the connection is still there when everything has been done, then the error was charged to the host of this connection after the report, and left its score below the threshold.", "quantifier": "all interleavings, any number of peers and connections, all reports", "why_tests_cant": "Whether the peer's address is found depends on the order in which the connections of the peer were opened and closed.", "anchors": ["internal/p2p/error_handler.go:handleError", "internal/p2p/connection_manager.go:GetPeerAddress", "internal/p2p/connection_manager.go:handleDisconnected"]}
{"id": "C96", "title": "No connection from a banned host", "statement": "After the score of a host has reached the threshold, a connection from this host that is open when everything has been done was allowed after that by the address gate, at a time when the score had decayed below the reconnect threshold.", "quantifier": "all interleavings, all peers and addresses of the host, all times", "why_tests_cant": "Gate, charge and opening of a connection are separate steps of different goroutines.", "anchors": ["internal/p2p/error_handler.go:InterceptSecured", "internal/p2p/error_handler.go:handleCanConnect", "internal/p2p/error_handler.go:handleError", "internal/node/node.go:Start"]}
{"id": "C97", "title": "Of two nodes running this program the one that is behind catches up", "statement": "When a node is connected to another one that runs this program, both nodes are on one chain, the chain and block store services behind them answer truthfully and the network between them works, then no handshake or sync round fails, the peer is not charged, and the node comes to have the block that was the head of the other one when the session began.", "quantifier": "all chains, all truthful services, all encodings of blocks that can be decoded, all options, all schedules, any growth of both chains meanwhile", "why_tests_cant": "Client, server, encoding, RPC layers and the sync loop must fit together over unboundedly many rounds; unit tests replace one side with a mock.", "anchors": ["internal/p2p/peer_connection.go:requestSyncBlocks", "internal/p2p/peer_connection.go:handshake", "internal/rpc/peer_rpc.go:GetBlocks", "internal/rpc/peer_rpc.go:GetAncestorBlockID", "internal/rpc/peer_rpc_service.go:GetBlocks", "internal/rpc/peer_rpc_service.go:GetAncestorBlockID", "internal/rpc/peer_rpc_service.go:GetHeadBlock", "internal/rpc/koinos_rpc.go:GetBlocksByHeight", "internal/rpc/koinos_rpc.go:GetBlocksByID"]}
{"id": "C98", "title": "The block applicator never gets stuck and never runs in circles", "statement": "As long as the applicator runs, it either has nothing left to do (no call on its way in, no request, attempt or message waiting, every ApplyTransaction call returned, every ApplyBlock call returned or waiting with its block in the pool), or it can do something other than waiting. Left alone, it does only finitely many such things, whatever the chain answers, and so comes to rest: one block does not make it submit for ever.", "quantifier": "every history of calls, broadcasts, fork heads and chain answers, every order in which goroutines run, every answer of the chain from then on", "why_tests_cant": "a test sees one schedule and stops waiting after some time; that no state is a dead end and that no execution goes on for ever are statements about all states and about infinite executions", "anchors": ["internal/p2p/applicator.go:Start", "internal/p2p/applicator.go:handleNewBlock", "internal/p2p/applicator.go:handleTryBlockApplication", "internal/p2p/applicator.go:handleBlockStatus", "internal/p2p/applicator.go:handleForkHeads", "internal/p2p/applicator.go:ApplyBlock"]}
{"id": "C99", "title": "With a chain service that works, valid blocks end up in the chain", "statement": "When the chain service accepts a valid block exactly if it has its parent, answers 'unknown previous block' otherwise, and announces every block it gets, then a chain of valid blocks on top of a block it has, each passed to ApplyBlock at least once in whatever order, among any other blocks, comes to be in the chain: the node left alone comes to rest, and then the chain has all of these blocks, none of them is kept in the pool, and every call with one of them has returned nil, its own timeout, or the refusal of a block that is irreversible by now.", "quantifier": "every order and repetition of the calls, all other calls, all interleavings of callers, workers, dispatcher, chain answers and announcements, blocks the chain gets from elsewhere, every verdict of the chain on other blocks", "why_tests_cant": "a test with a mock chain sees one schedule and short chains; here the chain's state decides the answers and every interleaving must lead to delivery", "anchors": ["internal/p2p/applicator.go:ApplyBlock", "internal/p2p/applicator.go:handleNewBlock", "internal/p2p/applicator.go:handleTryBlockApplication", "internal/p2p/applicator.go:checkBlockChildren", "internal/p2p/applicator.go:handleBlockStatus", "internal/p2p/applicator.go:handleBlockBroadcast", "internal/p2p/applicator.go:handleApplyBlock"]}
{"id": "C100", "title": "Blocks that the chain gets while the node starts do not hold up later blocks", "statement": "Whatever blocks the chain service gets from elsewhere while the program is starting, a chain of valid blocks on top of a block that the chain has, passed to ApplyBlock once the node runs, comes to be in the chain as it does on a node that was running all along.", "quantifier": "every moment of the start at which the chain gets blocks, all failures of the calls to the chain, all later calls and interleavings", "why_tests_cant": "needs the chain to move in the short time between two calls in the start of the program; a test starts against a chain that stands still", "anchors": ["cmd/koinos-p2p/main.go:main", "internal/node/node.go:NewKoinosP2PNode", "internal/node/node.go:Start", "internal/p2p/applicator.go:NewApplicator", "internal/p2p/applicator.go:handleNewBlock", "internal/p2p/applicator.go:handleBlockBroadcast"]}
{"id": "C101", "title": "The last irreversible block is known before anybody reads it", "statement": "From the first message validated and the first session started, reading the node's last irreversible block gives one that the chain service has named; the program never crashes over it, however long the chain service fails to answer during the start and whenever its announcements come.", "quantifier": "every order of the start, announcements, failures of GetForkHeads and reads", "why_tests_cant": "the order of the start against announcements and readers in other goroutines is a matter of scheduling; a test sees one order", "anchors": ["internal/node/node.go:Start", "internal/node/node.go:GetLastIrreversibleBlock", "internal/node/node.go:handleForkUpdate", "cmd/koinos-p2p/main.go:main", "internal/p2p/gossip.go:validateBlock", "internal/p2p/peer_connection.go:requestSyncBlocks"]}
{"id": "C102", "title": "The connections logged and those said to be left out add up", "statement": "Each minute the log lists the connected peers, a dozen at most, and says how many more there are: those listed and that number together are all the connections, each counted once.", "quantifier": "every number of connections", "why_tests_cant": "off by one only from twelve connections on; a test would have to open a dozen connections and read the log", "anchors": ["internal/node/node.go:logConnectionsLoop"]}
{"id": "C103", "title": "The last irreversible block of the node is the one that the chain named last", "statement": "Once the node has started, reading its last irreversible block gives the one that the chain service named last, in its answer during the start or in a later announcement; an older answer never replaces a newer announcement.", "quantifier": "every order of the answer, the announcements and their handling", "why_tests_cant": "an announcement must come between the answer of the chain service and the next statement; no test can place it there", "anchors": ["internal/node/node.go:Start", "internal/node/node.go:handleForkUpdate", "internal/node/node.go:GetLastIrreversibleBlock"]}
{"id": "C104", "title": "A sync round with an honest peer brings in the whole batch and never ends in an error", "statement": "When a peer answers truthfully, its chain extends our last irreversible block and our chain service accepts the next blocks of it, then a sync round with that peer ends without an error, so the peer is not charged, and the chain then has every block of the batch that was asked for.", "quantifier": "every chain, batch size and height; every interleaving of the round with the applicator, its workers, the chain service, other callers and announcements", "why_tests_cant": "the round, the applicator and the chain service are three concurrent components; a test fixes one schedule and mocks two of them", "anchors": ["internal/p2p/peer_connection.go:requestSyncBlocks", "internal/p2p/applicator.go:ApplyBlock", "internal/p2p/applicator.go:handleBlockStatus", "internal/p2p/applicator.go:handleForkHeads", "internal/p2p/applicator.go:handleNewBlock"]}
{"id": "C105", "title": "Turning gossip off ends the goroutines that turning it on began", "statement": "Each time gossip is enabled, listener goroutines are started with a context of their own. Whenever gossip is off between two checks of the toggle, and whenever the node's context is done, the context of every such goroutine ever started is cancelled, so that each of them returns once it runs: repeated switching leaves at most the goroutines of the latest enabling.", "quantifier": "all executions of the gossip switch: all interleavings of the toggle's checks, enabling, disabling, Close and the cancel of the node's context; any number of switchings", "why_tests_cant": "Leaked goroutines have no visible effect in a test, and the leak needs Close to fall between two statements of a concurrent disabling and enabling; a test observes one schedule.", "anchors": ["internal/p2p/gossip.go:StartGossip", "internal/p2p/gossip.go:StopGossip", "internal/p2p/gossip.go:startBlockGossip", "internal/p2p/gossip.go:EnableGossip", "internal/node/node.go:Close", "internal/p2p/gossip_toggle.go:Start"]}
{"id": "C106", "title": "Before the applicator runs nothing is accepted", "statement": "The start of the node turns on gossip and connections before it starts the applicator. Until the applicator is started, no block or transaction is submitted to the chain, no announcement of the chain is processed, and every ApplyBlock or ApplyTransaction call that returned, returned an error: no peer is told that something was accepted that the chain never saw.", "quantifier": "all executions of the start of the program, with all interleavings of arriving blocks, transactions, announcements and deadlines", "why_tests_cant": "The window between the start of the toggle and the start of the applicator is a few instructions; a test cannot hold it open, let alone try every arrival in it.", "anchors": ["internal/node/node.go:Start", "internal/p2p/applicator.go:Start", "internal/p2p/applicator.go:ApplyBlock", "internal/p2p/applicator.go:ApplyTransaction"]}
{"id": "C107", "title": "A node that keeps a session with an honest peer catches up with it, from the start of the program on", "statement": "From the start of the program on, let the node have a session with a peer that answers truthfully about a chain which extends the node's last irreversible block and which its chain service accepts. As long as the node's stored last irreversible block stays less than a batch behind its head, the deadline of ApplyBlock does not pass, blocks handed over are within the height window and not from the future, and the last irreversible block reaches only blocks the applicator is done with, then: no handshake and no sync round fails and the peer is never charged; the session waits for a call of ApplyBlock only while the applicator or the chain has something left to do; and after a number of steps of the session that depends only on the distance, the batch size and the number of checkpoints, the chain has every block that the peer had when the session began.", "quantifier": "every chain, distance, batch size and list of checkpoints; every number of earlier sessions; every interleaving of the session, the applicator, its workers, the chain service (which may get blocks from elsewhere), other callers, announcements, and growth of the peer's chain and of the last irreversible block", "why_tests_cant": "an unbounded number of rounds of a session that runs concurrently with the applicator and the chain; a test fixes one schedule, a few blocks and mocks of the others", "anchors": ["internal/p2p/peer_connection.go:connectionLoop", "internal/p2p/peer_connection.go:handshake", "internal/p2p/peer_connection.go:requestSyncBlocks", "internal/p2p/applicator.go:ApplyBlock", "internal/p2p/applicator.go:handleNewBlock", "internal/p2p/applicator.go:handleBlockStatus", "internal/p2p/applicator.go:handleBlockBroadcast", "internal/node/node.go:GetLastIrreversibleBlock"]}
{"id": "C108", "title": "A peer that relays valid blocks is not charged, and the blocks reach the chain", "statement": "Let the chain service work, and let blocks of a valid chain that extends what the chain service has come in by gossip, in any order, from any peers, among other messages and other callers of ApplyBlock. Then a message with such a block is accepted for relay without a charge, and the chain service has the block; or it is dropped without a charge because its height is below the last irreversible block the validator saw. Its sender is charged only if the fork watchdog refused the block, the deadline of ApplyBlock passed, or the block was at or below the last irreversible block. When nothing is left to do, the chain service has every block that was handed over, and every such message has got its verdict.", "quantifier": "every chain of valid blocks, every number of messages and of validators running at the same time, every order of arrival, every interleaving with the applicator, its workers, the chain service, other callers and movements of the last irreversible block that reach only blocks the applicator is done with", "why_tests_cant": "validators, dispatcher, workers and chain run concurrently, and the order of arrival is arbitrary; a test fixes one schedule, and mocks either the applicator or the validator", "anchors": ["internal/p2p/gossip.go:validateBlock", "internal/p2p/gossip.go:applyBlock", "internal/p2p/applicator.go:ApplyBlock", "internal/p2p/applicator.go:handleNewBlock", "internal/p2p/applicator.go:handleBlockStatus", "internal/p2p/applicator.go:handleBlockBroadcast"]}
{"id": "C109", "title": "A valid block that one node accepts reaches all nodes connected with it by gossip", "statement": "Take a network of nodes in gossip mode whose links lose nothing, and blocks of a valid chain that extends what all their chain services have. The blocks come up at whatever nodes, at whatever times and in whatever order, among other messages. When nothing is left to do anywhere, every node that is connected over links with nodes whose chain service accepted the blocks has all of them in its chain service too; and no node has charged another one for a message with one of the blocks.", "quantifier": "every number of nodes and every way they are linked, every chain of valid blocks, every place where they come up, every interleaving of the nodes' validators, applicators, chain services and publications and of messages on their way, messages of peers outside, and every time at which pubsub forgets that it has seen a message", "why_tests_cant": "a whole network of concurrent nodes with any topology; a test runs two or three nodes on one schedule", "anchors": ["internal/p2p/gossip.go:validateBlock", "internal/p2p/gossip.go:applyBlock", "internal/p2p/gossip.go:PublishBlock", "internal/node/node.go:handleBlockBroadcast", "internal/node/node.go:generateMessageID", "internal/p2p/applicator.go:ApplyBlock", "internal/p2p/applicator.go:handleBlockBroadcast"]}
{"id": "C110", "title": "A transaction that one node's chain accepts reaches the chains of all nodes connected with it by gossip", "statement": "Take a network of nodes in gossip mode whose links lose nothing, and a transaction that all their chain services accept. A client hands it to the chain service of some node. When nothing is left to do anywhere, the chain service of every node connected with that node over links has got the transaction, or a block that contains it; and no node has charged another one for a message with the transaction.", "quantifier": "every number of nodes and every way they are linked, every place and number of places where the transaction comes up, every interleaving of the nodes' validators, applicators, chain services, publications and accepted blocks, messages of peers outside, and every time at which pubsub forgets that it has seen a message", "why_tests_cant": "a whole network of concurrent nodes with any topology, and what other peers may have sent before; a test runs two nodes on one schedule", "anchors": ["internal/p2p/gossip.go:validateTransaction", "internal/p2p/gossip.go:applyTransaction", "internal/p2p/gossip.go:PublishTransaction", "internal/node/node.go:handleTransactionBroadcast", "internal/node/node.go:generateMessageID", "internal/p2p/applicator.go:ApplyTransaction", "internal/p2p/applicator.go:handleApplyTransaction", "internal/p2p/transaction_cache.go:CheckTransactions"]}
{"id": "C111", "title": "The node is started when its services answer, and as configured", "statement": "The program makes and starts its node only after the block store and then the chain have answered, and then exactly once, with the peers, checkpoints, gossip flags and discovery flag given and serving requests with the number of jobs given. It goes on as soon as the services answer (with any reply that can be read), and asks until they do. Settings that cannot be followed end it before it has asked anything: with status 0 if the version was asked for, with status 1 if the directory, the logger or the number of jobs is at fault, with a panic if a peer or a checkpoint cannot be read.", "quantifier": "all settings, all replies and failures of the message queue, any number of questions, signals at any time", "why_tests_cant": "main itself is not callable from a test: it reads the command line, needs a message queue and ends the process", "anchors": ["cmd/koinos-p2p/main.go:main", "internal/rpc/koinos_rpc.go:IsConnectedToBlockStore", "internal/rpc/koinos_rpc.go:IsConnectedToChain"]}
{"id": "C112", "title": "Waiting for the services does not use more and more memory", "statement": "While the block store or the chain does not answer, the program waits with a bounded number of contexts, however long that takes.", "quantifier": "all runs of the program, however many questions go unanswered", "why_tests_cant": "what piles up is a deferred call and a child of the root context per question; a test would have to wait for memory to run out", "anchors": ["cmd/koinos-p2p/main.go:main"]}
{"id": "C113", "title": "A termination signal ends the program in order", "statement": "When the process gets SIGINT or SIGTERM, the node is closed, exactly once, the contexts are cancelled, and the program ends with status 0; the program does not end otherwise once the node is started.", "quantifier": "all settings, all times at which signals arrive, any number of signals", "why_tests_cant": "main ends the process; the window between the start of the node and the registration of the signals cannot be hit by a test on purpose", "anchors": ["cmd/koinos-p2p/main.go:main", "internal/node/node.go:Close"]}
{"id": "C114", "title": "Blocks that are turned away do not use more and more memory", "statement": "A block that ApplyBlock refuses, that is never submitted to the chain and that the pool does not hold leaves nothing behind for ever: what the node remembers of refused blocks stays within a fixed bound.", "quantifier": "for all numbers of blocks, all runs and all continuations", "why_tests_cant": "The number of records depends on the whole history of blocks and last irreversible blocks; a test shows a few blocks and cannot show that records are never dropped in any continuation.", "anchors": ["internal/p2p/fork_watchdog.go:Add", "internal/p2p/fork_watchdog.go:Purge", "internal/p2p/applicator.go:ApplyBlock", "internal/p2p/applicator.go:handleForkHeads"]}
{"id": "C115", "title": "A host whose errors are forgiven is forgotten", "statement": "Once the error score of a host has decayed to zero the node keeps no record of the host; the number of hosts on record is bounded by the hosts with a score above zero.", "quantifier": "for all histories of errors and queries, all hosts, all numbers of hosts", "why_tests_cant": "Absence of a record, or its presence for ever, is a statement about all histories and all continuations; tests look at scores, not at records, and only at a few hosts.", "anchors": ["internal/p2p/error_handler.go:handleError", "internal/p2p/error_handler.go:handleCanConnect", "internal/p2p/error_handler.go:handleGetPeerErrorScore", "internal/p2p/error_handler.go:decayErrorScore"]}
{"id": "C116", "title": "A node that has no address at the moment stays up", "statement": "The program logs its own address after the start and once a minute. If the host has no address at that moment, nothing is logged and the program goes on; it never ends by a panic after its node could be made.", "quantifier": "for all runs of the program, all settings that can be followed, all moments, and all lists of addresses the host may give", "why_tests_cant": "The addresses of a host depend on the interfaces that are up at the time; tests run with a loopback listener and always find one.", "anchors": ["internal/node/node.go:GetAddress", "internal/node/node.go:GetAddressInfo", "internal/node/node.go:logConnectionsLoop", "cmd/koinos-p2p/main.go:main"]}
{"id": "C117", "title": "A peer that behaves is not charged while it both relays blocks and answers a session", "statement": "Let a peer answer all requests of the sessions with it rightly, and let every message with a block that it passes on carry a complete block of the valid chain (or one this node published). Gossip messages from it and from others, sessions with it and other callers use the same applicator at the same time, in any order and number. Then no validator ever reports the peer, none of its sessions fails or reports it; every message with a block of the chain is accepted once the chain has the block, or is dropped at no cost when the block is below the last irreversible one; the session still gets every block the peer had when it began, and neither the session nor a validator of a block that extends the chain waits for ever. The conditions on the node: blocks of the chain reach it within the height window and not from the future, no deadline of ApplyBlock passes for them, the fork watchdog does not object to them, and no block gets irreversible while a validator waits for its result.", "quantifier": "for all valid chains, all decoders, all runs of any length of the applicator, the chain service, the sessions and any number of validators, in any interleaving", "why_tests_cant": "unit tests exercise the validator and the peer connection one at a time against stubs; the interaction through the shared applicator has unboundedly many interleavings", "anchors": ["internal/p2p/gossip.go:validateBlock", "internal/p2p/gossip.go:applyBlock", "internal/p2p/peer_connection.go:connectionLoop", "internal/p2p/peer_connection.go:requestSyncBlocks", "internal/p2p/applicator.go:ApplyBlock", "internal/p2p/applicator.go:handleApplyBlock"]}
{"id": "C118", "title": "A block that comes in by gossip ahead of its time costs its sender nothing", "statement": "A valid block whose timestamp lies in the future of this node (its clock or the producer's is off) waits until its time is no more than DelayThreshold away and is then handed to the chain; the message that brought it is accepted or dropped, and the peer that relayed it is not charged.", "quantifier": "for all blocks, all times of arrival, all time limits of the validators and all runs of the applicator, the chain and any number of validators", "why_tests_cant": "the wait for the block's time, the deadline of the validator and the delay timeout are three clocks that tests with real timers cannot explore; and the claim is about every run", "anchors": ["internal/p2p/gossip.go:validateBlock", "internal/p2p/gossip.go:applyBlock", "internal/p2p/applicator.go:ApplyBlock", "internal/p2p/applicator.go:handleTryBlockApplication", "internal/options/gossip_options.go:blockTimeoutDefault", "internal/options/applicator_options.go:delayThresholdDefault"]}
{"id": "C119", "title": "A peer that behaves stays connected and is let in", "statement": "A peer that serves one valid chain, answers the requests of its sessions and passes on only valid blocks of that chain (the conditions of C117) and no bad transactions keeps its connections: whatever other peers do and are banned for, a connection with it ends only because the peer or the network ends it, and never because the node closes it. No error is ever charged to it, its error score is reported as zero, and a new connection from its host is let in, unless other peers at the same host were charged.", "quantifier": "for all runs of the validators, the sessions, the applicator, the chain, the error handler, the connection manager and the closing loop together, all other peers and all reports about them, all option values", "why_tests_cant": "needs all components together over every interleaving and every behaviour of other peers; a test shows one connection over one scenario", "anchors": ["internal/p2p/error_handler.go:handleError", "internal/p2p/error_handler.go:CanConnectAddr", "internal/p2p/error_handler.go:GetPeerErrorScore", "internal/p2p/error_handler.go:Start", "internal/node/node.go:Start", "internal/p2p/connection_manager.go:handleDisconnected", "internal/p2p/gossip.go:applyBlock", "internal/p2p/peer_connection.go:connectionLoop"]}
{"id": "C120", "title": "A block is submitted to the chain no more often than there is occasion for it", "statement": "However calls, messages and answers interleave, the number of times a block has been submitted to the chain, plus the number of goroutines under way to submit it, never exceeds the number of occasions there were: calls of ApplyBlock with the block, messages of the chain that name its parent (a broadcast of its acceptance, or a head in a fork heads message), answers of the chain that its state does not allow the block now, and applications of the parent that ended without an error. In particular a block handed over once, whose parent is not mentioned, is submitted at most once. The bound is met: with a single call, each fork heads message that names the parent while the block is with the chain adds one more goroutine, without limit.", "quantifier": "all options, schedules, reachable states and block ids whose handed-over blocks name one parent; all numbers of messages for the last part", "why_tests_cant": "A test sees the submissions of one interleaving; a bound on them over all schedules needs a measure that every step respects, through requests, retries, requeues and shutdown.", "anchors": ["internal/p2p/applicator.go:tryBlockApplication", "internal/p2p/applicator.go:handleTryBlockApplication", "internal/p2p/applicator.go:checkBlockChildren", "internal/p2p/applicator.go:handleBlockStatus", "internal/p2p/applicator.go:handleForkHeads", "internal/p2p/applicator.go:handleBlockBroadcast", "internal/p2p/applicator.go:handleNewBlock"]}
{"id": "C121", "title": "What gets a host cut off is the rate of its errors", "statement": "A host is never cut off for errors that together cost less than the threshold. A host that errs at most once every D, each error costing at most m, is never cut off, over any time and for any number of errors, if m is less than what a score at the threshold loses in D (threshold times 1 - 2^(-D/half-life)); the same holds for the reconnect threshold and refused connections. A host whose last n errors cost at least m each, come at most D after one another and have at most k looks at the score in between is cut off as soon as what is left of the n charges reaches the threshold. With the default options, ordinary errors (5000) at least three minutes apart never get a peer disconnected, and thirty of them at most a minute apart do. In the running node, once everything has come to rest, a host with such a series of errors had a peer all of whose connections at the time of the ban are closed; a peer charged only on hosts that err rarely loses no connection to the closing loop.", "quantifier": "all half-lives, thresholds, intervals, charges, numbers of errors and of looks, and all reachable states of the concurrent error handler whose clock does not go back", "why_tests_cant": "A test of the ban logic uses a handful of errors at a few instants; whether a slow trickle of errors adds up to a ban in the long run, or truncation at each look lets a steady offender stay below the threshold, is a statement about unbounded sequences.", "anchors": ["internal/p2p/error_handler.go:handleError", "internal/p2p/error_handler.go:decayErrorScore", "internal/p2p/error_handler.go:handleCanConnect", "internal/options/error_handler_options.go:NewPeerErrorHandlerOptions"]}
{"id": "C122", "title": "How long a ban lasts", "statement": "After an error has brought a host to the threshold, every connection from the host is refused for a time D, as long as at most k requests about the host are made in this time, if what is left of the threshold after D (threshold times 2^(-D/half-life)) less k is at least the reconnect threshold; no connection of any peer of the host is opened whose gate call began after the ban. After the last error of a host it is let in again by the time at which what is left of its score falls below the reconnect threshold, whatever was asked meanwhile. With the default options: refused for 29 minutes and up to a thousand requests; let in 61 minutes after a single fatal error. The number of requests matters: each takes at least a point off the score.", "quantifier": "all half-lives, thresholds, durations, scores and numbers of requests, all reachable states of the concurrent error handler and of the network around it whose clock does not go back", "why_tests_cant": "A test sees a refusal at one instant; for how long it is refused, and that it is let in again in the end, are statements about all instants and all requests in between, with a rounding at each of them.", "anchors": ["internal/p2p/error_handler.go:handleCanConnect", "internal/p2p/error_handler.go:handleError", "internal/p2p/error_handler.go:decayErrorScore", "internal/p2p/error_handler.go:InterceptAccept", "internal/options/error_handler_options.go:NewPeerErrorHandlerOptions"]}
{"id": "C123", "title": "What remote peers can make the local services do", "statement": "Whatever requests remote peers send over peer RPC, in whatever number and order and whatever the local services answer, each request leads to at most one message to a local service, and it only reads (the chain id, the head, blocks by height): no peer gets a block or a transaction submitted this way. Every request is answered and none crashes the node. A peer cannot have the node read more blocks at once than a batch.", "quantifier": "all sequences of requests of all peers, all behaviours of the encoder, the message queue and the local services", "why_tests_cant": "A test sends a few requests to services that answer; the claim is about all requests and all answers, malformed ones included.", "anchors": ["internal/rpc/peer_rpc_service.go:GetChainID", "internal/rpc/peer_rpc_service.go:GetHeadBlock", "internal/rpc/peer_rpc_service.go:GetAncestorBlockID", "internal/rpc/peer_rpc_service.go:GetBlocks", "internal/rpc/koinos_rpc.go:GetBlocksByHeight", "internal/rpc/koinos_rpc.go:GetHeadBlock", "internal/rpc/koinos_rpc.go:GetChainID", "internal/p2p/connection_manager.go:NewConnectionManager"]}
{"id": "C124", "title": "A session asks of its peer no more than its pace allows", "statement": "Whatever the peer and the local services answer, the requests that a session sends to its peer, and the blocks that it asks for, are bounded by the time it has lasted: with p the shortest of HandshakeRetryTime, SyncedSleepTime and a second, after a time T it has sent at most max(3, 2 + number of checkpoints) requests for each of 2 + T/p rounds and asked for at most a batch of blocks for each of 1 + T/p. A peer with which no handshake succeeds is sent at most 2 + number of checkpoints requests per HandshakeRetryTime, and is asked for no blocks; this bound is met. With the default options: three requests and five hundred blocks a second, and two requests in six seconds to a peer that does not pass the handshake.", "quantifier": "all options with positive pauses, all answers of the peer and the local node, all schedules, all durations", "why_tests_cant": "A test observes one session for a while; that no answer, error or flag ever lets it skip a pause is a statement about all sessions of any length.", "anchors": ["internal/p2p/peer_connection.go:Start", "internal/p2p/peer_connection.go:connectionLoop", "internal/p2p/peer_connection.go:handshake", "internal/p2p/peer_connection.go:requestSyncBlocks", "internal/options/peer_connection_options.go:NewPeerConnectionOptions"]}
{"id": "C125", "title": "How fast a node catches up with an honest peer", "statement": "A session whose calls return in time and which is not held up polls its peer regularly: the time it has lasted is at most that of its failed handshakes and its ended rounds, each with its pause, plus one handshake and one round. With an honest peer on our chain (the conditions of C92), if irreversibility never lags behind our head by more than a batch less g blocks, each round but the first brings g blocks. So a node that is H blocks behind has every block that the peer had when the session began after the time of one handshake and H/g + 3 rounds with their pauses. With the default options, irreversibility at most 60 blocks behind, 0.1 s for a question, 10 s for a batch and 20 ms for a block, a million blocks take at most 20 hours.", "quantifier": "all options, latencies of the calls, chains, honest answers, schedules without hold-ups, and numbers of missing blocks", "why_tests_cant": "A test syncs a few blocks from a mock; the time to catch up as a function of the distance, the batch, the lag and the latencies is a statement about all of them.", "anchors": ["internal/p2p/peer_connection.go:connectionLoop", "internal/p2p/peer_connection.go:requestSyncBlocks", "internal/p2p/peer_connection.go:handshake", "internal/p2p/peer_connection.go:Start", "internal/options/peer_connection_options.go:PeerConnectionOptions"]}
{"id": "C126", "title": "A peer that fails again and again is cut off in time", "statement": "(1) A host charged with n errors of at least m each between the times a and b, with at most k looks at its score before each, is cut off when the score threshold is at most n * (m * 2^(-(b-a)/halflife) - k - 1), however the errors are spread over the window. (2) A sync session that is not held up and in which no round of requests succeeds reports at least T/D - 3 errors in a time T, where D covers a failed handshake with its pause and, if the handshake succeeded, a failed round with its report and pause. (3) So a peer with which a session gains nothing for n + 3 times D, and whose errors were charged to its host, has been cut off when n errors in that time suffice for (1). With the default options and calls that end by their time-outs: a peer with which every handshake fails, at 3500 a time (a request that timed out) or more, is cut off within twenty minutes.", "quantifier": "all half-lives, options, latencies, answers of peer and local node, schedules, histories of the error handler, n, m, k, D", "why_tests_cant": "a statement about all spreads of errors over a window and about real time; tests use one sequence of errors and no clock", "anchors": ["internal/p2p/error_handler.go:decayErrorScore", "internal/p2p/error_handler.go:handleError", "internal/p2p/peer_connection.go:Start", "internal/p2p/peer_connection.go:connectionLoop", "internal/p2p/peer_connection.go:handshake", "internal/p2p/peer_connection.go:requestSyncBlocks", "internal/options/error_handler_options.go", "internal/options/peer_connection_options.go"]}
{"id": "C127", "title": "What other services learn about the node is true", "statement": "(1) The messages on the queue under the topic koinos.gossip.status say, in order, exactly the gossip statuses announced for which the queue returned no error; nothing else is sent there. (2) As long as the node is not being closed and no announcement failed, a service that reads the announcements and one that asks the node over RPC for its gossip status learn the same, except while a change is under way. (3) The version that the program shows names the build: two builds show the same version exactly if the first eight characters of their commits agree, or both have a shorter one.", "quantifier": "all runs of the gossip switch with connections that come and go, in every interleaving; all answers of the queue; every encoding that can be decoded; all commits", "why_tests_cant": "the order of announcements depends on the interleaving of toggle, connection manager and queue answers; the version is a statement about all pairs of builds", "anchors": ["internal/rpc/koinos_rpc.go:BroadcastGossipStatus", "internal/p2p/gossip.go:EnableGossip", "internal/p2p/gossip_toggle.go:Start", "internal/node/node.go:handleRPC", "cmd/koinos-p2p/main.go:makeVersionString"]}
{"id": "C128", "title": "Gossip is switched on and off in time", "statement": "A node without gossip flags that is running and not being stopped: if from a time t0 on somebody is connected and the head block is at most 45 seconds old, then one second and twice the time that a check takes later (1 s + 2 L) the node reports gossip as enabled, and goes on reporting it as long as this lasts. If from t0 on nobody is connected, or the head block is older than 45 seconds all the time, it reports gossip as disabled from then on in the same way. The bound cannot be improved: for every L up to 20 s there is a run in which the node still reports the old status exactly 1 s + 2 L after t0.", "quantifier": "all reachable states of the gossip switch and all timed continuations in which a check begins within a second of the last and takes at most L, with connections and head times changing in every interleaving; all L", "why_tests_cant": "a statement about all timings; tests with a fake clock fix one schedule", "anchors": ["internal/p2p/gossip_toggle.go:Start", "internal/p2p/gossip_toggle.go:UpdateHeadTime", "internal/p2p/gossip.go:EnableGossip", "internal/p2p/connection_manager.go:GetNumConnections"]}
{"id": "C129", "title": "While gossip is reported as enabled, blocks and transactions are published", "statement": "While a node that is not being closed reports gossip as enabled and is not in the middle of switching it off, every block and transaction that it is asked to publish is handed to the topic, once the listeners that were started with gossip have begun. (Not so if the subscription to a topic fails when gossip is switched on: the error is dropped, the node goes on reporting and announcing gossip as enabled, and publishes nothing on that topic until gossip has been switched off and on again. It is so if the subscription to that topic that was made when gossip was last switched on did not fail, whatever happened before. So a node without gossip flags to which somebody is connected, and whose head block is at most 45 seconds old, from t0 on, publishes what it is asked to one second and twice the time that a check takes later.)", "quantifier": "all reachable states of the gossip switch, i.e. all interleavings of checks, switching, listeners, subscriptions and publications; all option settings", "why_tests_cant": "a statement about all interleavings; tests have no failing subscription and look at one order of events", "anchors": ["internal/p2p/gossip.go:EnableGossip", "internal/p2p/gossip.go:startBlockGossip", "internal/p2p/gossip.go:startTransactionGossip", "internal/p2p/gossip.go:PublishBlock", "internal/p2p/gossip.go:PublishTransaction", "internal/p2p/gossip_toggle.go:IsEnabled"]}
{"id": "C130", "title": "How soon a configured peer that is not connected is dialled", "statement": "While the node runs, a configured peer that has been disconnected since t0 and stays so is dialled before 10 seconds plus two rounds over the configured peers have passed: with n different configured peers, a dial that takes at most D, and at most Q for each of going on to the next peer, handing over the question whether it is connected, and getting the answer, before t0 + 10 s + 2 n (3 Q + D). This holds for every t0, so it is dialled again and again at least that often, whatever other peers and callers do and in whatever order the peers are visited.", "quantifier": "all reachable states of the connection manager and all timed continuations within the bounds Q and D; all lists of configured peers, all orders of visiting them, all notifications and calls in between", "why_tests_cant": "a statement about all timings and interleavings and any number of peers; tests fix one schedule and one peer", "anchors": ["internal/p2p/connection_manager.go:connectInitialPeers", "internal/p2p/connection_manager.go:IsConnected", "internal/p2p/connection_manager.go:handleIsConnected", "internal/p2p/connection_manager.go:managerLoop"]}
{"id": "C131", "title": "A configured peer is not dialled too often", "statement": "While the node is not being stopped, at least ten seconds pass from one dial of a configured peer to the next dial of the same peer, whatever the network reports and however often others ask the connection manager. (With C130 this bounds the rate of dialling from both sides. What happens once the node is being stopped is C57.)", "quantifier": "all reachable states of the connection manager and all timed continuations in which the ten-second timer does not fire early; all lists of configured peers and all interleavings", "why_tests_cant": "a statement about all timings and interleavings; tests do not wait for several rounds", "anchors": ["internal/p2p/connection_manager.go:connectInitialPeers", "internal/p2p/connection_manager.go:managerLoop"]}
