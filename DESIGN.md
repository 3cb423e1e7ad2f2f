# rustBit: a machine-checked model in Rocq (Coq 8.16.1)

`properties.jsonl` lists the properties, `MANIFEST.json` maps them to theorems, `rocq/` holds the model and the proofs,
`seeded/LOG.jsonl` records what happened when the model was edited as a bug would edit the program.

How to read that log. There are two kinds of lines.

* Lines with `bug` and without `first_failing` (edits written by hand): every file was rebuilt, each proof that failed was admitted, and `failed` lists the
  theorems whose `Print Assumptions` then showed it. `breaks` was written down before the run.
* Lines with `first_failing` (most of them edits made by a script, all of the ids `x` and `u`): the build was stopped at the first statement that failed, and
  `failed` has that statement only, which is mostly a lemma. No theorem after it was run. `resting_on_it_not_run` lists theorems that mention the
  lemma, directly or not; it was found by looking for names in the sources, not by running anything. Nobody judged which claim such an
  edit breaks, so `breaks` is empty for the edits made by a script.

In both kinds a proof may fail because its script is brittle and not because the claim is false of the edited model. Earlier versions of the log (up to the commit
"Compare requests and trackers with and without errors of the disk; log further edits") gave the inferred theorems as `failed`, claims derived from
them as `breaks`, and in some lines as `tightened`; and they named `C22_transaction_id` as failing for x0416-x0419 although the run on record had
noticed nothing (repeated since: it does fail). Those versions should not be relied on.

Build: `cd rocq && coq_makefile -f _CoqProject -o Makefile && make -j4`.

## 1. Layout

`rocq/theories/`

| files | contents |
|---|---|
| `Base.v`, `Utf8.v` | outcome monad, `usize` arithmetic in both build profiles, byte/slice helpers, decimal printing and parsing, UTF-8 validity |
| `Model*.v` | the model, function by function; every definition cites file and lines of `/repo`; no proofs |
| `Spec*.v` | small specifications, written without the model's helpers where that is possible |
| `Proof*.v` | lemmas and proofs |
| `Prop*.v` | the property theorems only, each closed by `exact` (witnesses of `_refuted` theorems by computation), with `Print Assumptions`, and beside them `Example`s: concrete non-trivial cases that show that the hypotheses can be met |
| `RepoTests.v` | the repository's own unit tests, stated of the model (87 of 93; the other six test test equipment); no properties |

## 2. Conventions of the model

* A byte is an `N` below 256, a `usize` an `N` below 2^64 (64-bit target assumed). `Vec<u8>`, `&[u8]` and `String` are `list N`.
* A function that may panic returns `outcome A`: `Ret a`, `Panic`, or `OutOfFuel` (a loop has not finished within the fuel).
  `Result` and `Option` stay data inside `Ret`. A theorem about `OutOfFuel` for every fuel says that the program does not return.
* Overflowing `usize` arithmetic takes a build `profile`: `Debug` panics, `Release` wraps modulo 2^64. Theorems quantify over both.
* `&mut self` functions return the new state.
* `HashMap<String,T>` is an association list; `insert` replaces or appends. Functions that iterate over a hash map take the
  entries in whatever order they are given, and theorems quantify over all permutations.
* SHA-1 is a function parameter: theorems hold for every function in its place (some need digests of 20 bytes, which C60 proves
  of the real one). The real SHA-1 is `ModelSha1.sha1`; the examples about whole processes use it.
* Sockets are arrival schedules: before every socket operation the environment delivers an arbitrary (possibly empty) chunk, an
  I/O error, or the end of the stream. So a theorem "for every schedule" covers every TCP segmentation and timing.
  It also covers remote ends that react to what they are sent (C82).
* The actors of one torrent are a labelled transition system (`sys_step`), the whole process another one (`pr_step`) that contains
  any number of torrents, the trackers, and one disk. Network, scheduler, random shuffles and peer ids are inputs of the steps.
  Messages in a mailbox may be handled in any order (a superset of FIFO).
* The file system is a function from absolute locations to files and directories (Linux semantics without symbolic links,
  permissions, space limits); `create_dir_all`, `open`, positional writes with zero filling, truncation.

## 3. Properties: what is modelled and how each is proved

A property that the code violates is stated with the exact guard under which it holds, and the violation is proved as a `_refuted`
theorem with a witness (section 5 collects these). All properties are proved; none was found inexpressible.

### Bencode (`ModelBencode`, `SpecBencode`, `ProofBencode`, `ProofBencode2`, `PropBencode`)

The decoder is a fuelled mutual recursion (`decode_f`, `list_f`, `dict_f`) on an index into the contents, as in `decode.rs`.
`benc` (specification) prints an abstract value canonically.

* **C01** `C01_decode_inverts_canonical`: structural induction over values, with an arbitrary suffix and position.
  The guard "no empty string in value position" is necessary: `C01_empty_string_refuted`.
* **C02** `C02_decode_locality`: induction on fuel; the result depends only on the bytes before the final cursor.
* **C03** `C03_decode_decided` (strong induction on the remaining bytes: twice their number is enough fuel or no fuel is),
  `C03_list_hangs`, `C03_no_list_no_hang`. Stack depth is not modelled.
* **C04** `C04_truncated_panics`: induction over values, for every cut.
* **C05** `C05_integer_range`, `C05_length_prefix_range`: positional value of the digits compared with 2^64.
* **C06** `C06_lookup_last_binding`: association list against the sequence of entries.
* **C07** three theorems: the `Encode` instances against `benc`; a string is canonical iff it is ASCII.
* **C08** `C08_order_independent`, `C08_map_canonical`, `C08_map_round_trip`: sorting is invariant under permutation.

### Torrent description (`ModelTorrent`, `SpecTorrent`, `ProofTorrent`, `PropTorrent`)

* **C09** `C09_info_round_trip`, `C09_info_encoding_canonical` from C01; the ASCII guard is necessary: `C09_non_ascii_name_refuted`.
* **C10** `C10_info_hash_of_bytes`, `C10_extra_key_changes_bytes`.
* **C11** `C11_info_acceptance` (iff), `C11_not_a_dictionary`, `C11_no_length_aborts`, and two `_refuted` theorems for the
  dangerous acceptances.
* **C18** (magnet links) per-character lemma, induction over pairs; outcomes for every other shape of link (`C18_total`).

### Messages (`ModelMessages`, `SpecMessages`, `ProofMessages`, `PropMessages`)

* **C12** bit sweep over the 256 bytes inside a general induction; **C13**, **C14** layouts and round trips; **C15** the parse/print
  round trip of `new_metadata` never panics (uses C01); **C16** frames are self-delimiting, any sequence is recovered;
  **C17** outcome of `new_raw` for every id and body. **C47** (`PropSession`) what an extension message says.

### Trackers (`ModelTracker`, `SpecTracker`/`SpecLookup`, …)

* **C19**, **C20** chunk induction; decimal printing against the `std::net` IPv4 parser. **C21** byte layout against BEP 15;
  `C21_left_never_said` over all exchanges.
* **C22** the UDP exchange over every behaviour of the socket; `C22_silence_blocks` (no timeout), `C22_answers_unchecked`, `C22_transaction_id`,
  `C22_single_peer_rejected_refuted`. **C23** percent-encoding: decoding inverts it, hence injective, it contains only safe
  bytes, and every byte by itself (an RFC 3986 unreserved byte as it is, any other as `%` and two digits).
* **C20** also has the other direction: exactly which texts are addresses, and that any other text aborts.
* **C59** the whole lookup by URL scheme, HTTP and UDP, including when it aborts.

### Writing (`ModelWriter`, `SpecWriter`, `ProofWriter`, `PropWriter`)

* **C24** interval arithmetic over the file list, both profiles. **C25**, **C26** invariants over arbitrary sequences of piece writes
  (any order, repetitions, cut anywhere); exact condition for zero-length files (`C25_empty_files`); what unfinished files hold
  (`SpecGap`, `ProofGap`, `PropGap`: `C26_nothing_else`, `C42_nothing_else`). **C27** path walk: everything
  happens below the working directory when the components are plain names.

### Pieces and blocks (`PropPieces`)

* **C28**, **C29** arithmetic (`lia`/`nia`) for all sizes, with the exact condition under which requests tile the piece;
  **C38** the pool refines a list queue.

### Framing (`ModelStream`, `PropStream`)

* **C30**–**C32** symbolic execution of `read_stream` over every arrival schedule (43 reads and peeks), exact consumption.

### Peer sessions (`ModelPeer`, `SpecPeer`, `ProofPeer`, `PropPeer`; `SpecSession`, `ProofSession`, `PropSession`)

* **C33** fold over the received messages. **C34** what `init_peer` sends, and what success means. **C35**, **C36** loop invariant of
  `execute`: the run is a `history` of reads and requests; bound on the number of rounds; the only ways not to return.
* **C37** verification: direct. **C48**, **C49** sufficiency: a cooperating peer (a predicate on delivered messages, satisfied by
  concrete seeds) always yields the piece or the metadata. **C50** metadata is not checked.
* **C61** (`SpecOutput`, `ProofOutput`, `PropOutput`) what a session sends: an invariant on the log of written bytes carried through
  initialisation and the histories of C35, with arbitrary write failures; no unchoke message, no session. The extension handshake
  is pinned in `SpecMessages` as a bencoded value.

### One torrent (`ModelActors`, `SpecSystem`, `ProofSystem`, `PropSystem`)

* **C39**–**C46** inductive invariants over the reachable states of `sys_step` (any interleaving of reports, actor, five workers,
  writer): every piece in exactly one place, concurrency bound, no duplicates, disk contents, start condition, peer choice,
  counters, deadlock freedom, a decreasing measure, completion when at rest. `collision` is the explicit escape "a peer has sent
  wrong data with the right hash", not an axiom about SHA-1.

### The stored description (`ModelCache`, `PropCache`)

* **C51** printer/parser round trip for the JSON text (fuel proved adequate), file effects. **C52** every proper prefix of the
  text is rejected: case analysis over the printer. **C53** cache names are injective; content unchecked.
* **C64** (`SpecText`, `ProofText`, `PropText`) UTF-8 and JSON as grammars (inductive relations written from RFC 3629 and RFC 8259);
  the reader is proved sound (induction on fuel) and complete (mutual induction on the grammar) for them, then the conversion to the
  structures is proved equivalent to `says_info`.

### The process (`ModelMain`, `SpecMain`, `ProofMain`, `PropMain`)

* **C54**–**C58** invariants over `pr_step`: registrations, questions, reports, dead trackers, independence of torrents (simulation
  of a lone torrent), the common disk.
* **C62** (`SpecWhole`, `ProofWhole`, `PropWhole`) for an arbitrary torrent the continuation is constructed: request, tracker, eleven
  reports, metadata session (C49), piece sessions with truthful peers (C48) and writes, first for the torrent alone (`honest`), then
  lifted into the process (`lift_run`). **C63** combines C40, C41 and C58.
* **C65** (`SpecDisk`, `ProofDisk`, `PropDisk`) every step of the process changes the disk not at all, by one (possibly aborting) write of
  a piece of a torrent that is known, or by getting a description; each of these only grows the disk. A write that panics keeps what it
  did before the panic (`write_left`). The exact conditions for aborting use that files of one torrent do not get in each other's way.
* **C66** (`SpecGrammar`, `ProofGrammar`, `PropGrammar`) the decoder's language as inductive relations, one for each of the four things that
  can happen (value, error, abort, no end); mutual induction on fuel one way and on derivations the other way; the four are exhaustive
  because a run either ends for some fuel or for none.
* **C67** (`SpecWrites`, `ProofWrites`, `PropWrites`) a simulation: reading commutes with forgetting what was written and what writes will
  do, so two sessions with the same input stay alike; C48 and C49 follow without assuming that writes succeed, and C36 is lifted from the
  exchange of blocks to whole sessions.
* **C68** (`SpecForever`, `ProofForever`, `PropForever`) executions are functions from the natural numbers to steps. A pair of numbers goes
  down lexicographically: lookups that can still be made for the torrent (at most one per tracker, C55), then work left + twice the peers
  still to be reported + three times the failures left. "Never stops with something left to do" is the only fairness assumed; it is weaker
  than fairness of each part. The refutation without a bound on failures is a cycle of three steps repeated forever.
* **C69** (`SpecAsk`, `ProofAsk`, `PropAsk`) `talk` describes a UDP conversation by rules over what could be sent and what arrived; each rule
  fixes the result, the rules are exhaustive and exclude each other. For HTTP the grammar of C66 decides: value, error, abort, no end.
* **C70** (`SpecVerdict`, `ProofVerdict`, `ProofHear`, `ProofTold`, `ProofExactly`, `PropVerdict`) `pending` and `ends` describe a session by the
  list of attempts to read alone (which messages, which silences), in terms of first moments, without the client's state; at most one ending
  fits a list. The state of the client is shown to be a function of the list (`tracks`), round by round, so that every outcome of `download`
  and `get_info` is equivalent to one of the descriptions.
* **C71** (`ModelDepth`, `SpecDepth`, `ProofDepth`, `PropDepth`) The decoder once more with a count of the calls that fit on the stack;
  `deep` says on the grammar of C66 how many values are open at once. Erasing the count gives the decoder of `ModelBencode`
  (`stack_or`), so the two models cannot drift apart.
* **C72** (`ModelClock`, `SpecClock`, `ProofClock`, `ProofTime`, `ProofQuiet`, `ProofBusy`, `ProofLasts`, `PropClock`) `stream.rs` once more with
  a clock in milliseconds: what the other end does is a list of events with the moments at which they arrive; a read or peek
  returns at once if there is something to find, and otherwise waits for it for at most 100 ms; the pauses between attempts to
  read a body are 5, 10, ... ms. Every operation refines the one of `ModelStream` run on the schedule of what it found (`refines`, a
  simulation proved operation by operation), so that C70 applies to sessions in time (`socket_of`). Durations are added up along
  the same structure; the number of attempts is bounded by counting the silent attempts between messages. `C72_limit_refuted`
  computes the whole session with a peer that sends a `have` message every 100 ms. The program's own computations and its
  writes take no time in this model; the connection is open at its start (connecting takes up to one second more).
* **C73** (`SpecNear`, `ProofNear`, `ProofSuffices`, `PropNear`) C48 and C49 in time. `near` describes a peer by the moments at which its
  messages arrive. The state of a connection between two messages is what is waiting and what is to come (`at_`); from such a state
  the next message is read after at most nine attempts in vain, each of which costs 100 ms (`step_at`, including a message without
  body, after which the client waits for up to 200 ms), so that the peer cooperates in the sense of C48. The end comes in time
  because after the last message the session could not be going on (`near_over`, with C70 and C72).
* **C74** (`SpecAlike`, `ProofAlike`, `PropAlike`) Noninterference of sessions. `piece_alike` and `info_alike` say when two attempts mean
  the same; every clause of the description of a session (C70: `opened`, `going`, `asks`, `ends`) is shown to respect them
  (`ends_alike`, once for both kinds of session), and C70 turns that into equal results. For messages that have all arrived the
  outcomes are equal outright, aborts included (`C74_said_piece`, `C74_said_metadata`).
* **C75** (`ModelMemory`, `SpecMemory`, `ProofMemory`, `PropMemory`) `read_stream` once more, with the number of bytes reserved for the body
  (`stream.rs` 138); it reads what `read_stream` reads (`stream_m`). What is consumed is at least the message (`stream_consumes`); with
  C70 the attempts of a session are known, so its reservations are. `C75_vain` says what an attempt reserves that brings nothing. Whether the allocator grants them is not modelled.
* **C76** (`SpecPlant`, `ProofPlant`, `PropPlant`) An invariant of the whole process: every description on disk that can be read at all has
  the hash of its name, and every torrent's description the hash of its link. A save writes a prefix of the JSON text, which is read
  back as the same description or not at all (C52, C64); names of different hashes differ (C53; hashes of links are bytes:
  `link_octets`); writes change only the torrents' own paths (C65). The refutation is one run of the model, with real hashes.
* **C77** (`ModelLog`, `SpecLog`, `ProofLog`, `PropLog`) The process once more, with the log file: any line may be logged between any two
  steps. Two disks that differ at the log only give the same outcome of every walk, write and save that does not come there, and
  differ at the log only afterwards (`walk_off`, `run_off`, `collect_off`); by induction over the execution the process with a log and
  the one without agree elsewhere (`act_same`, `c77_apart`). Paths with `..` are covered if `test.log` is none of their segments. Where a line
  goes (`C77_position`): a file stays a file under every step of the process (`file_stays`), so the log stays the file that was opened
  (`log_position`), and a line is put where the lines before it end, whatever the torrents have written there.
* **C78** (`ModelThreads`, `SpecThreads`, `ProofThreads`, `PropThreads`) The process once more, with its threads: a worker thread of the
  HTTP server holds at most one handler of one of its torrents, from its beginning to its end, and the main thread at most one answer.
  Dropping the beginnings gives an execution of the process (`c78_execution`). What a held thread cannot do follows by induction over
  the steps of the others (`c78_waits`); which peers never let go is C70/C36 for every amount of fuel (`c78_when`). The number of
  worker threads is a parameter. Messages for the threads for downloads and writing are passed on by the main thread; how many have been
  is counted (`C78_passed_on`). Every step takes from the two queues of a torrent at most what had been passed on (`took_step`), and steps
  before the end of an answer pass nothing on (`left_run`), so that all that begins had been passed on before (`C78_downloads_wait`).
* **C79** (`ModelProbe`, `SpecProbe`, `ProofProbe`, `PropProbe`) Connection attempts with latencies. A peer comes into the mail of a torrent only
  by an attempt that succeeded (`near_tried`), so far peers leave it as it was made (`far_unused`). A datagram of 4000 bytes has at most
  663 peers (`answer_size`); attempts use up the peers of answers (`tried_count`, as in C68), of which there are 18 (C55). A peer accepts,
  refuses or is silent; only silence costs the whole 50 ms, and it does so for every silent peer (`C79_unresponsive`).
* **C80** (`SpecResume`, `ProofResume`, `PropResume`) Two executions with the same events: a relation between their states (everything but the
  disk outside `downloads` and the writers) is kept by every step (`act_outside`); the only thing ever read from the disk is a description
  (`collect_da`), and writing stays out of `downloads` by the hypothesis (`write_region`). Deliveries, pieces handed over and pieces in the
  mail are counted along the execution (`c80_deliveries`); that none gets lost uses that the actor of a torrent with a description lives (C44).
* **C81** (`SpecBacklog`, `ProofBacklog`, `PropBacklog`) The unwritten pieces are some of the numbers of C39, each at most once, and right unless
  forged; all pieces together are as long as the torrent (`sum_all_pieces`). For the second part the schedule of C46/C48 is taken and its
  writes are left out, which changes nothing but the writer (`run_agree`). For the whole process (`C81_all_torrents`) each torrent is compared
  with the same torrent running alone (C58), which agrees in all but the writer's queue; that this queue is the end of what was handed over
  is an invariant of the process (`ProofDisk.writer_suffix`).
* **C82** (`ModelLive`, `SpecLive`, `ProofLive`, `ProofServe`, `ProofAnswers`, `PropLive`) Sessions once more, with a remote end that is a program: it
  hears what is written to it and says something before every read or peek. Every such session is one with a schedule (`C82_schedules`: an
  operation that reads looks at no more than the next 82 events, `local`; what is sent does not depend on what arrives meanwhile,
  `oblivious`). A server is a concrete program of this kind (`SpecLive.server_hears`, `server_says`): it answers requests that lie within a piece
  after a delay of its own, and the network cuts each message as `sd_cuts` says (`gentle`: the first five bytes in one segment, the last
  segment within 42 reads or peeks; the greeting comes in one segment). The conversation keeps an invariant: what has arrived, what is on its
  way, how much of a message has been taken and which block is asked for (`talking`, `owing`, `asked_for`); at most one request is open at
  any time. `C82_any_segments_refuted` shows that 42 cannot be 43 and that the first five bytes have to come together.
* **C83** (`SpecSeeds`, `ProofSeeds`, `PropSeeds`) The pool is a queue: requests made and pieces waiting are together the numbers of the pieces and
  then the failures, as an equation between lists (`handle_pool`, `c83_order`). For a torrent that downloads from the servers of C82 only, an
  invariant along the infinite execution: five workers, no failure, nothing but the right data (`c83_spotless`, with C82 for each download);
  C68 does the rest. If pieces end within a block, the same induction with `C82_unaligned` shows that only the last piece ever arrives.
* **C84** (`SpecLink`, `ProofLink`, `ProofBegin`, `PropLink`) From the link to the last byte. Scheduling is assumed as in C68, and for the trackers
  as `attended`: those of a list stay alive and take every message and finish every lookup some time. Then each of them has been asked once
  for each torrent (the conservation law behind C55 and C56, plus progress), and its reachable peers have been reported. What the peers do is assumed step
  by step: a connection for the description goes as one with a server of C82 that has it (`introduced`), a download as one with a seed
  (`served`). An invariant over the whole process (`joint_step`) then keeps every torrent alive and every description, in memory and on the
  disk, the right one; the count of reports passes ten, so the torrent begins (C68's beginning), and C83 completes it.
  `never_full` excludes mailboxes that are full and refuse a message, as in C55; `reachability c` fixes which addresses accept connections.
* **C85** (`SpecPace`, `ProofPace`, `PropPace`) An execution gets a clock: any function that gives each step a time and does not run backwards.
  `prompt` says how soon, by this clock, a waiting piece is begun (if a worker is free), a download ends, its result is handled, the piece at
  the head of the writer's queue is written. By C83's equation of lists the requests are the piece numbers in their order; by induction on the
  round the first five times k are handed over after k rounds (`handed_over`, `rounds`), and then the writer's queue drains
  (`all_written`). The lower bound needs no assumption on failures: a piece that is received was begun `least` before, at most five are in
  work, so five more cannot have been received (`c85_at_least`). The example is tight from both sides.
* **C86** (`ModelTimed`, `SpecTimed`, `ProofTimed`, `ProofFar`, `PropTimed`) The sessions of C82 with the clock of C72: `hear` says when what a remote
  end sends because of what it was sent arrives here. `far rtt v` is the server of C82 at a distance of `rtt` milliseconds, with delays in
  milliseconds. `ProofTimed` says when each kind of message is read by `stream.rs`; `ProofFar` carries that through the session: the
  opening is read by `all_read`, then each request is answered `rtt` plus the delay later and only then the next one is sent.
  `near`: at most 100 ms away, whole messages, an opening that is read within ten attempts, and that ends with the message that makes the
  client ready. Setting up the TCP connection, writing and the client's own computations take no time in this model.
  `C86_schedules` ties these sessions to the ones of the other properties, as `C82_schedules` does.
* **C87** (`ModelFull`, `SpecFull`, `ProofFull`, `PropFull`) The torrent of C39-C45 with an operating system that may refuse: for every file of every
  write a verdict says whether a directory cannot be made, the file cannot be opened, `write_at` fails, or takes only some bytes. This stands for
  full disks, missing permissions, limits on names and sizes. `alike_but_disk` is an invariant of the two executions step by step. Each
  write is a sequence of the steps of `interrupted` (C26), whatever the verdicts, as long as the pieces handed over are right, which C42's
  invariant says of the execution beside it; pieces are handed over once (C41), so the bytes of one that is through are left alone.
  `C87_errors` is about one write: which verdicts end the writer, and where the bytes go that are taken; a short write is a full write of less.
* **C88** (`SpecSpeed`, `ProofSpeed`, `PropSpeed`) C85's lower bound with C86's durations. `from_afar`: every download that ends began with some
  earlier step, has occupied a worker since, came to the same end as the session of C86 that began then, with a server at `rtt` or more,
  and did not end before it. By `C86_rate` a session with a whole piece lasts at least 100 ms and one round trip more than it has blocks, and
  by C85's argument at most five pieces are in work (`five_whole`). `C88_rate` is the same in bytes, `C88_complete` for the whole torrent.
  `C88_in_time` is the bound from above: `punctual` says that downloads end with such sessions, or `late` after; `C86_piece` tells how long they last,
  and `C85_served` does the rest. In the example the bound is met exactly.
* **C89** (`ModelFullMain`, `SpecFullMain`, `ProofFullMain`, `PropFullMain`) The process of C54-C58 with the verdicts of C87 at every write. A write with
  any verdicts changes nothing of its torrent but the writer (`write_alike_v`), so each torrent still agrees with one that runs alone
  (`alone_v`), and what is handed over is right. On the disk each write is a sequence of the steps of `interrupted` (C26) for the files of its
  torrent, and leaves those of the others alone (`onward`, `good_run_v`); a write that is taken is the write of C58. Requests and trackers are
  compared step by step with the execution in which everything is taken (`search_run`). So are, for `C89_unnoticed`, the
  torrents and the saved descriptions (`twins_run`): the search for a description looks only at the directory of these (`collect_same`), which no
  write reaches (`write_saved`).
* **C60** SHA-1: the digest is the one FIPS 180-4 defines (`SpecSha1.is_digest`: padding, message schedule and rounds as relations),
  of 20 bytes, for every message.
* **C18, C20, C23, C24, C31, C32, C65 in their corners** (`SpecExact`, `ProofExact`, `PropExact`): what any forty characters of a link stand for
  in either build; which peers are reported; that a server which reads the query of the request as servers do gets hash and peer id (and
  does not if the tracker's URL has a query already: refuted; no built-in tracker has one); file sizes and piece places that do not fit
  into 64 bits, in either build; read errors; a torrent that aborts while getting its description is idle for good.

## 4. Trusted base

* Coq's kernel, 8.16.1 (including `vm_compute`). No axioms: `Print Assumptions` beneath every theorem says
  *Closed under the global context*, without exception. (A checker that lists the axioms of all loaded libraries also shows
  parameters of the standard library's `Coq.ssr.ssrunder`, which the standard library loads; no theorem depends on them.)
* That the model describes the program. The source was read, not run. The model follows it function by function; the table says
  where it simplifies. `RepoTests.v` checks that the model gives the results that the repository's unit tests expect of the code.
* The standard library and crates as described in their documentation (`std::net` address parser, `urlencoding`, `serde_json`,
  `sha1`, `actix`), to the extent stated below.

| source | model | not modelled or simplified |
|---|---|---|
| `bencode/decode.rs`, `encode.rs`, `metainfo.rs` | `ModelBencode`; call stack depth in `ModelDepth` | bytes per stack frame, recursive drop of values; the payload of UTF-8 errors |
| `messages/*.rs` | `ModelMessages` | `new_generic_message`, `new_bitfield`, `new_extension`: helpers of the program's own tests |
| `torrent/file.rs`, `info.rs`, `magnet.rs` | `ModelTorrent`; `from_file`, `save` in `ModelCache` | errors of `from_file` carry the location instead of the path text |
| `torrent/writer.rs` | `ModelWriter`; with an OS that refuses in `ModelFull` | symbolic links; a full disk, permissions, the system's limits on the lengths of names and paths and on the sizes of files, and short writes are in `ModelFull` (C87) and, for the whole process, `ModelFullMain` (C89), elsewhere the OS takes all bytes |
| `tracker/*.rs` | `ModelTracker`; the time of connection attempts in `ModelProbe` | crate `url` (parsed records are given), `ureq` (its result is an input), DNS; tokio's sockets are the schedule |
| `common/generator.rs` | peer ids are inputs (`valid_peer_id`) | randomness |
| `common/mock_stream.rs` | `RepoTests.mocked` (a socket that is closed from the start) | test double, used only by the program's own tests; `FailingMockStream` |
| `peer/stream.rs` | `ModelStream` | `set_read_timeout` succeeds; a failing `write_all` sends any beginning of the message; sleeps are part of the schedule, and modelled with a clock in `ModelClock`; a body buffer is allocated for any length |
| `peer/mod.rs`, `buffer.rs`, `piece_pool.rs`, `manager.rs`, `download/*.rs` | `ModelPeer`; with remote ends that react in `ModelLive`, in time in `ModelTimed` | logging (`track_progress`); the mutex is never poisoned |
| `actors/torrent.rs`, `connection.rs`, `writer.rs`, `messages.rs` | `ModelActors`, `collect_info` in `ModelCache` | any message of a mailbox may be handled next (superset of FIFO); a panicking worker thread is not replaced and its message is lost, and messages for these threads go through the main thread (`SyncArbiter` of actix 0.13; the second only matters in `ModelThreads`); what a panicking writer wrote before the panic stays on the disk (`write_left`); peer counters do not overflow |
| `actors/tracker.rs`, `trackers_interface.rs` | `ModelMain` | a full mailbox is an input; lookups of one tracker interleave arbitrarily; a panic in a future ends the tracker actor, its mailbox and its other futures |
| `main.rs` | `ModelMain.add_magnet`, `process_init`; the log file in `ModelLog`; threads in `ModelThreads` | HTTP server (requests are inputs, handed to any worker thread), body of 400/413 answers; what the lines of the log say (any bytes at any moment) |
| crate `sha1` | `ModelSha1` | modelled from FIPS 180-4, checked on its test vectors |
| crate `serde_json` | `ModelCache` | modelled from its documentation: compact printing, strict parsing, derived structs; proved against the grammar of RFC 8259 (C64); the nesting limit (128) cannot matter: typed values nest four deep, skipped ones are read without recursion |

`OutOfFuel` inside the torrent system means that the call does not return: the worker stays busy (`sys_step` leaves the state as it is).

## 5. Findings

Everything here is proved of the model (theorem in parentheses).

Parsing
* The decoder rejects the valid empty string `0:` (`C01_empty_string_refuted`) and loops for ever on a list whose next item starts
  with an unexpected byte (`C03_list_hangs`); peers and trackers can send such a list (`C17`, `C36_piece_terminates`: `endless`).
* A text of `2n+2` bytes (`lll…eee`) from any peer or tracker overflows a stack with space for `n` calls, and that kills the process,
  not one worker (`C71_enough_stack_refuted`, `C71_harmless_message_refuted`); the size of messages is not limited.
* A peer whose handshake takes more than 100 ms to arrive is given up (`C72_far_peer`): peers on other continents cannot be
  used. A single attempt to read can block a worker for 8 seconds, and a session has no time limit at all (`C72_limit_refuted`).
* Text lengths are printed in characters, so non-ASCII names break the encoding and hence the info hash
  (`C07_string_canonical_iff_ascii`, `C09_non_ascii_name_refuted`).
* Extra keys in the info dictionary change the recomputed info hash, which the handshakes use (`C10_extra_key_changes_bytes`).
* Malformed file entries are dropped silently and shift the later files (`C11_malformed_file_dropped_refuted`); metadata with neither
  length nor files is accepted and aborts later (`C11_no_length_accepted_refuted`, `C11_no_length_aborts`).
* Magnet links: exactly 60 bytes panics (`C18_sixty_bytes_panics`); non-hexadecimal digits are accepted
  (`C18_non_hex_accepted_refuted`); other lengths are kept undecoded (`C18_undecoded`).

Trackers
* No announce says that anything is left to download, so trackers take the client for a seed (`C21_left_never_said`); all packets carry the
  same transaction id (`C22_transaction_id`).
* A UDP answer with one peer is rejected (`C22_single_peer_rejected_refuted`, `C59_udp_few`); transaction ids are not compared
  (`C22_answers_unchecked`); without an answer the lookup waits for ever (`C22_silence_blocks`); `https` is unsupported
  (`C59_other_scheme`).
* HTTP answers that list peers as dictionaries (BEP 3) are errors, and the query does not ask for the compact form
  (`C69_plain_peers_refuted`); an HTTP answer cut off inside a value aborts the tracker actor (`C69_http`).
* Each tracker is asked once per torrent (`C55_at_most_once`); a tracker actor whose socket fails dies for good, and after one
  attempt without network no torrent hears of peers again (`C57_dead_for_good`, `C57_all_dead`, `C57_recovers_refuted`).
* Peers that take more than 50 ms to accept a connection are never heard of (`C79_near_only`, `C79_reachable_refuted`), and finding that
  out occupies the thread of all trackers, up to 33 seconds for an answer (`C79_reachable_refuted`).

Peers
* Keep-alives swallow a byte of the next message, split prefixes and handshakes are misread, incomplete bodies lose their header,
  messages of 304–320 MiB are taken for handshakes, a connection that ends after a keep-alive is read as a choke
  (`C31_incomplete_body`, `C32_*`).
* Blocks are assembled in order of arrival whatever offset they state (`C35_arrival_order_refuted`); blocks of other pieces and even
  requests are taken for data (`C35_foreign_blocks_refuted`); an early block makes the client ask for block 1 twice and never for
  block 0 (`C35_unsolicited_refuted`).
* The info hash is compared only once (`C34_second_handshake_refuted`); a chatty peer holds a worker for ever (`C36_busy_peer`).
* Messages with short bodies abort the worker (`C17_new_raw_outcomes`); its piece is then lost for good (`C39_aborted_worker`,
  `C39_lost_piece_refuted`), and five of them stop the torrent (`C46_stall`, `C46_stall_refuted`).
* A peer without `ut_metadata` aborts the metadata request (`C36_no_ut_metadata_refuted`); too few piece hashes abort the worker
  (`C37_missing_hash_refuted`).
* Piece lengths that are no multiple of 16 KiB make the last request of a piece reach into the next piece
  (`C29_unaligned_refuted`); offsets above 4 GiB are truncated (`C29_large_piece_refuted`); piece length 0 panics
  (`C28_zero_piece_length_refuted`); lengths near 2^64 overflow (`C24_overflow_refuted`, `C28_overflow_refuted`).
* Pieces that nobody delivers are requested forever, without limit or pause (`C68_gives_up_refuted`).
* Blocks that arrive before the peer has unchoked the client and stated a metadata size are thrown away; extension messages that do not
  decode count as silence (`C70_piece`, `C70_example`).
* The content of one torrent can be taken for the saved description of another (`C76_planted_refuted`).
* Five bytes make the client reserve up to 4 GiB (`C75_attempt_limited_refuted`); a description of 80 bytes makes the queue of
  pieces arbitrarily long (`C75_queue_limited_refuted`).
* The bitfield of a peer, and everything else it says about what it has, is ignored (`C74_piece`, `C74_example`).
* Metadata is not checked against the info hash that was asked for (`C50_metadata_unverified_refuted`).

Torrent and disk
* Nothing is downloaded with ten peers or fewer (`C43_ten_peers`); a peer reported twice has its failures forgiven
  (`C45_duplicate_refuted`).
* `..` in file names escapes the working directory (`C27_traversal_refuted`, in a whole run `C65_stays_inside_refuted`); zero-length files may be missing
  (`C25_empty_file_missing_refuted`); short writes go unnoticed (`C25_short_write_refuted`); longer existing files keep their tail
  (`C26_stale_tail_refuted`); conflicting paths panic the writer (`C25_conflicting_paths_refuted`).
* A description that was saved only partly panics every later start (`C52_never_starts_again`); a stored description is not compared
  with the hash (`C53_cache_verified_refuted`).
* Two torrents with equal file names overwrite each other (`C58_kept_apart_refuted`).
* Links that are not understood get no HTTP answer at all, and posting a link twice starts two torrents
  (`C54_always_answered_refuted`, `C54_once_refuted`).
* One peer that answers with a message the decoder never finishes stops a worker thread for good, with all torrents that were added
  through it and all requests handed to it later (`C78_isolation_refuted`); with one processor that is the whole client
  (`C78_whole_client_refuted`).
* While the main thread tries the peers of an answer, up to 33 seconds (`C79_unresponsive`, `C79_answer_size`), nothing that the torrents
  ask for is downloaded and nothing that arrives is written, however many threads are free (`C78_downloads_wait`,
  `C78_free_threads_refuted`): actix passes messages for such threads on from the main thread.
* The log is an ordinary file in the working directory: starting the program empties whatever is called `test.log` there (`C77_start`), and
  a torrent whose file has that name is spoilt by the log (`C77_named_like_log_refuted`).
* What was downloaded before is not looked at: after a restart a complete download is fetched again (`C80_resume_refuted`).
* Pieces wait in memory for the writer without a limit other than the size of the torrent, which may wait there as a whole
  (`C81_all_of_it`).
* From peers that ignore requests reaching beyond a piece, no piece but the last can be had if the piece length is not a multiple of 16384
  (`C82_unaligned`): the request for the last block of a piece is not cut at the end of the piece. A torrent of several pieces then is never
  completed from such peers, however long it tries (`C83_unaligned`).
* A message whose first segment ends within its first five bytes, or whose end comes more than 42 reads or peeks later, is lost, and with it
  the session, unless the rest is there at once: a peer that would give the piece does not (`C82_any_segments_refuted`). Messages are not put together across attempts.
* More than five peers do not make a torrent faster: at most five pieces are downloaded at a time (`C85_at_least`), whatever is known of the peers.
  From peers at a distance a torrent gets at most 80 KiB in a round trip (`C88_rate`): 800 KiB a second at 100 ms, however fast the line is.
* When the disk is full, permissions are missing or a name is too long, the torrent goes on as if all were well, downloads everything, and never
  says otherwise (`C87_unnoticed`): after the first error its writer writes nothing more (`C87_gives_up`), and what a short write left out is
  not made up for (`C87_never_again`, `C87_recovers_refuted`). Nothing is damaged, and a new run repairs it (`C87_no_damage`, `C87_restart`).
* A peer more than 100 ms away (there and back) is of no use: the handshake is read once, with a timeout of 100 ms, and then the session is given up
  (`C86_distant`).
* A piece comes no faster than one block of 16 KiB in every round trip (`C86_rate`): there is never more than one request on the way. 100 ms more
  are lost before the first request of every piece, since `execute` reads before it asks, and up to 200 ms more for every message without a body.
