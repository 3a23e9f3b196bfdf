# Formal model of koinos-p2p in Rocq (Coq 8.16.1): design

`properties.jsonl` lists the properties (C01...). `MANIFEST.json` maps each one to the theorems
that settle it. This file says what is modelled, how each property is proved, and what is trusted.

## 1. Method

* The model is executable Gallina, written function by function from `/repo`. Every definition cites
  file and lines. Files: `theories/<Area>_Model.v` (no proofs), `<Area>_Spec.v` (small independent
  specification, where one is needed), `<Area>_Proofs.v`, `<Area>_Props.v` (only the property theorems,
  `Example`s showing the hypotheses are met, `Print Assumptions`).
* Go semantics made explicit (`GoBase.v`): `uint64`/`uint32` wrap-around, saturating `time.Time.Sub`,
  `nil` as `None`, panics as an explicit outcome, errors as values with `errors.Is` walking the wrap chain.
* Go `string(bytes)` is Coq's `string` (a byte list). Go maps are std++ `gmap`/`gset`; map iteration order is
  only used where the visible result does not depend on it (said at each place).
* Concurrency: goroutines and channels become a labelled transition system with one label per atomic step
  (`step : state -> label -> option state`); a schedule is any list of labels; a property of all schedules is an
  induction over that list. Where every message is sent by its own goroutine the set of messages in transit is a
  list from which the receiver may take any element: a sender goroutine may be delayed arbitrarily before its
  send, so every order is realisable.
* Conversations (peer connection) are finite interaction trees: a program is a tree of requests, the environment
  is an arbitrary function from the conversation so far to a response, so a theorem "for all environments" covers
  adversarial, time-varying peers.
* Properties false of the code: theorem `..._refuted` with a witness trace, plus the strongest true statement, named `..._partial` when it is a weakening of the property.

## 2. Plan per property

| Id | Modelled as | Proof |
|----|-------------|-------|
| C01 | `TxCache`: list of items + set, prune/insert loops | refinement to a never-pruned map id -> last admission time, for every call history |
| C02 | same; observation log | induction on histories from the refinement |
| C03 | same | invariant (sorted, NoDup, set = ids, ages) |
| C04 C05 | `Watchdog`: map height -> (signer,parent) -> id set; sort-and-delete purge loop | history specification "ids added since the last covering purge", refinement |
| C06 | same | refuted: three forged siblings; partial: true if fewer than three forged ids |
| C07 C08 C09 | `ErrHandler`: map host -> (time, score), one step per request served by the loop; decay is a parameter (any function) | exact step lemma + history fold per host; non-interference by filtering the history |
| C10 | decay with Flocq binary64 rounding, `math.Exp` any value in [0,1] | monotonicity of rounding |
| C11 | decay over stdlib reals, no rounding except the uint64 truncation | half-life bounds proved; independence from reads refuted (each read at a later time loses at least one point) |
| C12 | error trees, the switch as an ordered table; default options | induction on wraps; enumeration of the finite kind type |
| C13 | `uint64` wrap | refuted for extreme options; partial below 2^64 |
| C14 C15 C16 | `Toggle`: tick state machine with int64 conversion | induction on ticks |
| C17 | `GossipMgr`: Start/Stop | induction on call sequence, event log alternation |
| C18 C19 | `GossipLife`: sessions (starter goroutine, reader goroutine, channel, contexts) as LTS | refuted by schedule; partial: holds if no starter is outstanding; crash impossible while no context is cancelled |
| C20 | Publish functions | case analysis |
| C21-C26 | `GossipVal`: validators as functions of decode result and applicator result | case analysis, induction on error trees; C23 C24 C25 refuted with witnesses, true boundary stated |
| C27-C41 C44 C69 | `Applicator`: core state + effects per handler, LTS with callers, attempts, delay timers, workers, RPC results | invariants over all schedules; refutations C33 C35 C37 C39 C41 C44 by witness schedules plus exact partial statements |
| C42 C43 | same LTS with the transaction cache | invariant on the submission log via C02 |
| C45-C50 C52 C71 C72 | `PeerConn`: interaction trees for handshake and sync round | exact trace shapes for arbitrary environments; C49 C50 C72 refuted |
| C49 C51 C70 | `PeerConn` session: loop, pauses, reporter goroutines, cancellation as LTS | invariants over all schedules; well-foundedness after cancellation; C51 order and cancellation refuted |
| C53-C55 | `ConnMgr`: event loop | history specification; C54 refuted (two connections) |
| C56 | `ConnMgr` start-up with the unbuffered channel | refuted for every schedule: with one existing peer the loop never starts |
| C73 | `ConnMgr` loop between question and answer | refuted by an inductive 'stuck' invariant; partial: an answer or event step is always enabled |
| C57 | seed loop | per-round statement; termination after cancel refuted |
| C58 | version lookup loop with time; semver parser is an oracle | induction on retries |
| C59 C60 | `LocalRpc`: call classification | case analysis, induction on detail list |
| C61 | `PeerRpc` client and service; protobuf is an oracle with a round-trip hypothesis | composition |
| C62-C66 | `Node`: handlers, message id (base64 modelled in full), seed, gossip score | case analysis; injectivity of base64; arithmetic |
| C67 | option parsing of `main` (SplitN, ParseUint, hex) | refuted; true for well-formed strings |
| C78 | the seeding of math/rand (reduction mod 2^31-1) | refuted; counting and pigeonhole |
| C79 C80 | `Node` with the goroutines of broadcasts and the store of Start | invariants on schedules; refuted by schedules; partial for ordered arrivals / prompt goroutines |
| C81 | peer addresses in `main`, parser an arbitrary function | refuted; exact characterisation |
| C82 | `Asm_Model`: the error handler and the connection manager as one transition system; a call of GetPeerAddress is a caller of the manager | measure decreasing with every internal step, and a state without internal steps is settled |
| C83, C84 | the same | links between calls and callers as invariant; answers of the manager (C53) at a moment of the call |
| C85 | the same with connections at start-up | refuted; the handler is frozen in every continuation |
| C86 | `Switch_Model`: toggle, EnableGossip in single steps, connection manager and Close as one transition system | invariants from the tick to its end; answers of the manager (C53); decreasing measure |
| C87 | the same, the announcements as a ghost list | invariant relating parity, flag and phase of the toggle; refuted for failing broadcasts |
| C88 C89 | the same with Close running in parallel | refuted by schedules; invariants after Close / while not both are stopping |
| C90 | the same with connections at start-up | refuted for every such set; partial from C86 and C87 |
| C91 | `Switch_Model` and `Asm_Model` after the context ends | refuted: hanging states are closed under all steps; partial by constructing the ending run |
| C92 | `PeerConn_Model` sessions against an honest peer and honest local services (`Catchup_Spec`: one chain, a rule for irreversibility) | weakest preconditions of the programs with a budget of requests, invariant of the session; refuted by an invariant when irreversibility lags by a batch |
| C93 | `Applicator_Model`; `Deliver_Spec`: truthful chain, settled applicator, recent block, block submitted in order, for a set of block ids | invariant: a held block of the set whose parent is announced has a request or an attempt that will count, or its parent has; chains by induction; refuted by a run in which the LIB reaches the parent |
| C94 | `Cutoff_Model`: `Asm_Model` with the closing loop of node.Start, its unbuffered channel and the network's connections | invariant "doomed": a connection of a charged peer is closed or its closing is under way; decreasing measure and progress |
| C95 | the same | the report is served (C82, C83) with the address of the session; refuted by a peer with two connections |
| C96 | the same, with the gate call that let each connection in | refuted by two runs; otherwise the answer of the gate in the sequential history of C74 |
| C97 | `PeerRpc_Model.world`: our session over the peer RPC client, the serving side and the local RPC calls of the other node (`TwoNodes_Spec`: truthful services behind both) | each answer of `world` is one of an honest peer (C61), so C92 applies; refuted as C92, by two concrete nodes |
| C98 | the applicator system; `Rest_Spec`: what it does by itself, what is mere waiting, when it is at rest | a nine-component lexicographic rank falls with every step that is not waiting; case analysis of what is left to do gives an enabled step; refuted for "block state error" by a loop of any length |
| C99 | the applicator system composed with a chain service (`Honest_Spec`: the set of blocks it has, the blocks it still has to announce; its answers follow from that) | invariant over runs of the composition gives what C93 assumes (truthful answers, no refusals but of blocks that are irreversible by now); the LIB may pass blocks that the chain has and the applicator is done with; the rank of C98 extended by what the chain still lacks gives rest; refuted for old blocks by a concrete run and an invariant of the state it ends in |
| C100 | the start of the program (`Boot_Model`: the statements of main and Start in order) beside the composition of C99, with a chain that goes on getting blocks | a run of the start without a missed block is a run of C99's composition; refuted by a concrete run that is at rest; that a later report of the parent wakes the block is an invariant over runs of the applicator |
| C101 | the stored LIB and its readers in `Boot_Model` | invariant over runs tying the place of the main goroutine to what is stored |
| C102 | the loop over the connections as a function (`log_connections`) | induction over the list |
| C103 | the answer, the announcements and the store in `Boot_Model` | induction over runs; refuted by a concrete run |
| C104 | the sync round (`PeerConn_Model.request_sync`) composed with the applicator and chain of C99 and a peer that answers truthfully (`Round_Spec`) | invariant over runs of the composition; the prefix handed over is delivered as in C99; refuted by a concrete run in which the LIB overtakes the first block while an attempt at it waits |
| C105 | the sessions of `Switch_Model` (one per enabling, with the state of its two listeners and whether its context is cancelled) | invariant over runs; refuted by a concrete run with Close whose leak is closed under all steps but the end of the context |
| C106 | `Boot_Model` | invariant over runs until the last action of Start |
| C107 | the session of `PeerConn_Model` composed with the applicator and chain of C99, from the start of the program (`Follow_Spec`) | invariant over runs of the composition; every session in it is a session with an honest peer in the sense of C92, whose theorems then apply; at rest no block whose parent the chain has is held |
| C108 | the validator of `Gossip_Model` composed with the applicator and chain of C99; any number of messages under way (`Relay_Spec`) | invariant over runs that links each validator with its call of ApplyBlock; the run of applicator and chain inside satisfies C99's conditions, whose invariants then say what the call returns |
| C109 | any number of the nodes of C108, linked in any way; announced blocks are published; pubsub between them as described in `Flood_Spec` (a message goes to all linked peers when it is published or accepted; ids seen before are dropped unless pubsub has forgotten them, which may happen at any time; links lose nothing) | network invariant: what a node has seen it has announced or it has a validator for it, and it has been sent on or is being checked; at rest, induction along the chain of blocks and along the path of links. Refuted with a validator's deadline that passes |
| C110 | the network of C109 for transactions: validators of transactions (gossip.go:403-447) over the applicator's model with all its block work, the transaction cache and the mempool's announcements; pubsub may forget at any time that it has seen a message (`TxNet_Spec`) | node invariant: if the cache knows the id or a call with the transaction was served, the chain has it or is being asked; network invariant as in C109; induction along the path of links. Refuted with another transaction of the same id, and with a deadline that passes |
| C111 | all of `main` as a sequence of steps beside the replies of the queue and signals (`Prog_Model`), with the option parsing of C67 and C81 and the two calls of `LocalRpc_Model` | invariant tying the place of the main goroutine to what has been seen; every sight has its reasons behind it |
| C112 | the contexts derived in the waiting loops of `Prog_Model` | refuted for every number; exact count as an invariant |
| C113 | the signal channel of `Prog_Model` | refuted; from the registration on by an invariant and the three remaining steps of main |
| C114 | the watchdog's records inside the LTS of the applicator (`Memory_Spec`: `remembers`) | refuted by an induction over the number of refused blocks, and over all continuations; exact content and clearing through the watchdog's history |
| C115 | the map of `ErrHandler_Model` | refuted for every number of hosts; exact content by induction over the history |
| C116 | the looks of `main` and of the logging goroutine at the host's addresses, in `Prog_Model` | refuted by runs for every configuration; otherwise the last step of a run that panics is found by cases |
| C117 | the validators of C108 and the session of C107 over one applicator and chain (`Both_Spec`); one label per validator step, session step or outside step | simulation of the run by a run of C107; invariant for the validators (C108's, and the calls of chain blocks are answered, not given up) |
| C118 | the runs of C108 with the times of arrival and a limit on the time of a validator (`Early_Spec`) | invariant: no call for a block succeeds before its time less DelayThreshold (C33, C41), unless the delay timeout passed; every validator was over in a state within its limit; concrete run for the refutation |
| C119 | the composition of C117 with the error handler, the connection manager and the closing loop (`Cutoff_Model`), joined by the channel of error reports (`Stay_Spec`) | a peer that is never charged (C117) is never reported; invariant: no report, charge or disconnect request about it is anywhere; a connection leaves the network's table only by the closing loop or by itself; gate answers from the served history (C74) |
| C120 | the applicator's system (no new model); occasions counted from calls, messages and answers only (`Often_Spec`) | a weight over calls not yet sent, blocks not yet taken, requests, attempts, results not yet handled and messages not yet handled, plus submissions: every step pays for what it adds; equality for a family of runs of every size |
| C121 | the concurrent error handler's served history (`EhSys_Model`) with the exact decay (`ErrDecay_Model.decay_real`) | invariant along the host's touches: rare errors keep the score below the geometric limit; frequent ones push it above any smaller bound; lower bounds count one point lost per look; composed with C94 for connections (`RateNet_Props`) |
| C122 | the served history and the answers of the concurrent error handler with the exact decay; the network of C94 | bounds on the host's ledger along its touches: from below (errors only add, a point lost per touch), from above (looks only); composed with the gate rule of C96 |
| C123 | the four methods of the peer RPC service composed with the calls to the local services, for any sequence of requests and any answers (Serve_Model) | induction over the requests: each sends at most the one message that its method asks for; crash and unbounded reads refuted by witnesses, with exact conditions |
| C124 | the session of C45-C52 with a clock and timers that are not ready before their time (Pace_Model) | budgets of the handshake and of a round over all answers, and an invariant that relates handshakes and rounds begun to the time passed; a run that meets the bound, by induction |
| C125 | the timed session of C124, latencies of the calls, schedules without hold-ups (Speed_Spec); honest surroundings of C92 | budgets of time of the handshake and of a round, an invariant that charges all time to failed handshakes, ended rounds and what is under way; the run invariant of C92 with the amount per round as a parameter |
| C126 | errors of a host between two times; the timed session of C125 in which no round succeeds (Window_Spec) | a lower bound on the score by induction over the errors of the window (rounding costs k + 1 per error); an invariant that counts reports against failed handshakes and rounds; the time bound of C125 |
| C127 | the message of BroadcastGossipStatus and the queue, over the switch of C86; the version string (Status_Model) | induction over the calls; the announcement theorems of C87; injectivity of the version in the short commit |
| C128 | the switch of C86 with a time at every step; how long a pause and a check may last (Punctual_Model) | an invariant with four stages (old check, pause, check within the window, settled); a run that meets the bound |
| C129 | the switch of C86: what is published while gossip is reported as enabled | refuted by a failed subscription; for a topic whose last subscription worked, an invariant: from the start of the listeners to the first stop, the cancel function belongs to a session whose listeners, once they have run, have their topics on; with C128, the time from which on |
| C130 | the manager of C53-C57 with a time at every step; how long the seed loop may stay where it is (Redial_Model) | a budget: the rest of the round if the peer is still due in it, else the rest, a pause and a whole round; every step pays for the time it took; for `C130_again_and_again` (in k times the bound at least k dials) the time is cut into pieces |
| C131 | as C130, with a timer that does not fire early | after a dial the peer is not among those still to be visited, until a pause that began later has passed; for the rate (`C131_rate`: at most T/10s + 1 dials of a peer in a time T), induction with the earliest time of the next dial as potential |
| C74 C75 | `EhSys`: the error handler's loop, buffered queues and callers as a transition system over `ErrHandler` | invariants by induction on schedules; C74 reduces every execution to a sequential history |
| C76 | `EhSys` before SetPeerAddressProvider / Start | refuted; partial once wired |
| C77 | `PeerRpc` composed with `PeerConn` (`world`) | direct evaluation of a round over the RPC clients |
| C68 | blocking-send-then-select calls against a bounded channel | refuted when the loop is not serving; partial when it is |

## 3. Trusted base

* Coq 8.16.1's kernel, and `vm_compute`'s virtual machine (used to evaluate concrete runs in `_refuted` theorems
  and `Example`s).
* The axioms listed in section 4. The development adds none of its own; it has no functors, module types or `Declare Module`,
  no plugins, and switches no kernel check off.
* The reading of the Go code. The model is written by hand from the text of `/repo`. It is neither extracted from the code
  nor was it run against it: the sandbox has no Go dependencies.
* The semantics given to Go: goroutines interleave at channel operations, locks and atomic loads and stores; no data race
  outside these is modelled. Memory, stack and scheduling limits are not modelled.

## 4. Axioms (`Print Assumptions` for every theorem named in MANIFEST.json)

All theorems are "Closed under the global context", except these, which speak about float64 (through Flocq) or real
half-lives:

| Theorems | Axioms (all of Coq's standard library) |
|---|---|
| `C10_score_never_rises_without_error` `C10_no_time_no_change` `C10_bound_is_needed` `C11_halflife` `C11_reads_change_the_score_refuted` `C11_queries_clear_a_ban_refuted` `C11_queries_clear_a_ban_float_refuted` `C11_reads_lose_at_most_one_each_partial` `C13_histories_do_not_wrap_partial` `C66_graylisted_may_not_connect` `C66_exactly` `C66_refused_peer_ignored_refuted` `C66_refused_peer_ignored_partial` `C121_rare_errors` `C121_frequent_errors` `C121_defaults` `C121_connections_closed` `C121_connections_stay` `C122_refused` `C122_let_in` `C122_defaults` `C122_no_connection` `C122_proviso_needed` `C126_errors_in_a_window` `C126_cut_off_in_time` `C126_defaults` | `ClassicalDedekindReals.sig_not_dec`, `ClassicalDedekindReals.sig_forall_dec`, `FunctionalExtensionality.functional_extensionality_dep`, `Classical_Prop.classic` |

A listing of everything in the loaded libraries (`coqchk -o`, `vcheck`) also shows the sealed definitions of
`Coq.Reals.Rdefinitions` (`RbaseSymbolsImpl`, `RinvImpl`) and of `Coq.ssr.ssrunder`. They are module seals of the standard
library and appear in no `Print Assumptions`.

## 5. What is modelled

| Code | Model | Left out or simplified |
|---|---|---|
| `p2p/transaction_cache.go` | `TxCache_Model` | nothing; the clock is an argument |
| `p2p/fork_watchdog.go` | `Watchdog_Model` | nothing |
| `p2p/error_handler.go`, `options/error_handler_options.go` | `ErrHandler_Model` (sequential), `ErrDecay_Model` (float64 decay), `EhSys_Model` (loop, queues, callers, gater) | `math.Exp` is a correctly rounded or arbitrary bounded function, as said at each theorem; log lines |
| `p2p/gossip_toggle.go`, its options and the flags of `main` | `Toggle_Model`; `Punctual_Model` (the switch in time) | the ticker is a label carrying the time; the status broadcast is a ghost log entry |
| `p2p/gossip.go` | `Gossip_Model` (validators, publish), `GossipLife_Model` (start and stop as a transition system) | libp2p's pubsub is an environment; protobuf is an oracle; log lines |
| `p2p/applicator.go`, `options/applicator_options.go` | `Applicator_Model` | the number of worker jobs is kept; the chain's answers are labels; the clock is a label |
| `p2p/peer_connection.go`, its options | `PeerConn_Model`, `Pace_Model` (the same session with a clock) | contexts appear as time-outs passed with each request and as answers of the environment |
| `p2p/connection_manager.go` | `ConnMgr_Model`, `Version_Model` (GetProtocolVersion), `Redial_Model` (the seed loop in time) | libp2p's host and network are an environment; semver parsing is an oracle |
| `p2p/protocol_version*.go`, `p2perrors/errors.go`, `options/*.go` | constants in the files above | |
| `rpc/koinos_rpc.go` | `LocalRpc_Model`; `Status_Model` (the message of BroadcastGossipStatus, whose call is a step of `Switch_Model`); `Serve_Model` (which calls a remote peer can cause) | protobuf and the message queue are arbitrary functions |
| `rpc/peer_rpc.go`, `rpc/peer_rpc_service.go` | `PeerRpc_Model` | gorpc is a call of the service method, possibly failing; protobuf is an oracle with a round-trip hypothesis where needed |
| `node/node.go`: handlers, GetLastIrreversibleBlock, handleRPC, generateMessageID, seeds and keys, score parameters | `Node_Model`, `Score_Model` | SHA-256, ECDSA key derivation and the output of `math/rand` after seeding are arbitrary functions; base64 is modelled in full |
| `node/node.go`: wiring and start of the error handler and the connection manager | `Asm_Model` | other users of the two components are arbitrary callers |
| `node/node.go`: wiring of toggle, gossip, connection manager; Close | `Switch_Model` | the host's Close is one step; message readers are in `GossipLife_Model` |
| `node/node.go` 423-432: closing the connections of a charged peer | `Cutoff_Model` | the network opens connections the gate allowed, and notifies; ClosePeer closes all connections of the peer in one step |
| `node/node.go` Start and `cmd/koinos-p2p/main.go` lines 224-231: the order of the start | `Boot_Model`, and the start of each component in its own model | a node that cannot be made ends the program, which is not followed; the statements are single steps |
| `node/node.go` logConnectionsLoop | `Boot_Model` (`log_connections`), `Prog_Model` (GetAddress) | the timer |
| `cmd/koinos-p2p/main.go` lines 151-193 | `Main_Model` | the parser of multiaddresses is an arbitrary function |
| `cmd/koinos-p2p/main.go` main as a whole; the version string | `Prog_Model`; `Status_Model` | what the flags and the YAML file give is an input; making, starting and closing the node are single steps here (their parts are in `Node_Model`, `Boot_Model`, `Switch_Model`) and take any time |

## 6. What is not modelled

* `NewKoinosP2PNode` apart from the values above: the construction of the libp2p host, DHT, AutoNAT, connection limits, pubsub
  options and peer exchange; PeerStringToAddress, ConnectToPeerAddress and GetConnections, which only call libp2p.
* `main`: how flags and the YAML configuration are read and combined (a library), the message queue client, logging.
* libp2p, gorpc, protobuf, the message queue, SHA-256, ECDSA, multihash, semver: environments or arbitrary functions.
* Wall-clock durations of computations; fairness of Go's scheduler and of `select` (liveness statements say "can", or count
  steps of the component concerned).
