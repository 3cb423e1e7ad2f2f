{"id": "C01", "title": "Bencode decoding inverts canonical bencoding", "statement": "Decoding the canonical bencoding of any value (integers below 2^64, byte strings, lists, dictionaries with distinct UTF-8 keys) followed by arbitrary further bytes returns exactly that value and leaves the cursor exactly at the end of the value, provided no string in value position is empty.", "quantifier": "every bencode value of any size and nesting depth, every trailing byte sequence", "why_tests_cant": "values nest without bound; unit tests check five literals", "anchors": ["src/bencode/decode.rs: Decoder::decode, parse_integer, parse_string, parse_list, parse_dictionary, get_total_parsed_bytes"]}
{"id": "C02", "title": "Decoder cursor stays in bounds and the result depends only on the consumed bytes", "statement": "Whenever decode succeeds, the number of parsed bytes is at most the input length (so slicing the remainder off never panics), the cursor never moves backwards, and if any byte was consumed then replacing everything after the cursor by arbitrary bytes gives the same value and the same cursor.", "quantifier": "every input byte sequence, every suffix", "why_tests_cant": "quantifies over all inputs, including malformed and adversarial ones", "anchors": ["src/bencode/decode.rs: Decoder::decode, get_total_parsed_bytes", "src/messages/extension.rs: ExtensionMessage::from_bytes"]}
{"id": "C03", "title": "Decoder termination is decided within a linear bound; a list item starting with an unrecognised byte hangs it", "statement": "For every input the decoder either finishes within 2*length+2 nested calls/loop iterations or never finishes at all. It never finishes on any list, after any number of well-formed items, whose next item starts with a byte other than i, l, d, e, 1-9: in particular on a list containing the (valid) empty string 0: or a negative number written without i.", "quantifier": "every input byte sequence; every list prefix and every offending byte", "why_tests_cant": "non-termination cannot be observed by a test and the claim ranges over all inputs", "anchors": ["src/bencode/decode.rs: Decoder::decode, parse_list"]}
{"id": "C04", "title": "A truncated bencoded value is never accepted", "statement": "Every non-empty proper prefix of a canonical bencoding makes the decoder abort (panic); it is never accepted as some other value.", "quantifier": "every canonical value, every cut point", "why_tests_cant": "the cut points of every value of every size", "anchors": ["src/bencode/decode.rs: Decoder::decode, get_current_byte, parse_string"]}
{"id": "C05", "title": "Numbers outside usize are rejected, never wrapped", "statement": "An integer i<digits>e whose decimal value is 2^64 or more is reported as a decoding error carrying its digits; below 2^64 exactly that value is returned. The same holds for string length prefixes. Non-digit starts (including the minus sign) are errors. Leading zeros are accepted.", "quantifier": "every digit string of every length", "why_tests_cant": "digit strings have no bound; a wrap-around shows only near 2^64, and a test can try only a few literals", "anchors": ["src/bencode/decode.rs: get_consecutive_digits, parse_integer, parse_string"]}
{"id": "C06", "title": "Dictionary lookups return the last value bound to the key", "statement": "After decoding a dictionary, looking a key up returns the value of the last entry with that key, reports a missing key error when there is none, and reports a type error when the value has another type; list, integer, string and bytes accessors agree with this.", "quantifier": "every sequence of dictionary entries (with repetitions), every key", "why_tests_cant": "every history of insertions, including repeated keys in any order; a test fixes one", "anchors": ["src/bencode/decode.rs: parse_dictionary", "src/bencode/metainfo.rs: get_value_from_dict, get_bytes_from_dict, get_string_from_dict, get_integer_from_dict, get_list_from_dict"]}
{"id": "C07", "title": "Bencode encoding of strings is canonical exactly for ASCII strings", "statement": "Encoding a byte vector, an integer or a list yields canonical bencode; encoding a text string yields canonical bencode if and only if the string is ASCII (the length prefix counts characters, not bytes).", "quantifier": "every byte vector, integer, list and valid UTF-8 string", "why_tests_cant": "every string of every script; the existing tests use only ASCII literals, where characters and bytes coincide", "anchors": ["src/bencode/encode.rs: Encode for String, &str, usize, Vec<u8>, Vec<T>, Option<T>, encode_dict_entry"]}
{"id": "C08", "title": "Map encoding does not depend on hash-map iteration order", "statement": "Encoding a map gives the same bytes for every iteration order of the map, with keys in strictly increasing byte order, and (for ASCII keys) decodes back to the same map.", "quantifier": "every finite map and every iteration order of it", "why_tests_cant": "the iteration order is randomised per process; a test sees one order", "anchors": ["src/bencode/encode.rs: Encode for HashMap<String,T>"]}
{"id": "C09", "title": "Torrent info survives encode / from_bytes", "statement": "Parsing the encoding of an Info returns an identical Info, for every Info whose texts are ASCII and non-empty and whose piece hash string is non-empty.", "quantifier": "every Info value (any number of files, any path depth)", "why_tests_cant": "any number of files with any path depth and any numbers; a test fixes one value", "anchors": ["src/torrent/info.rs: Info::from_bytes, Info::from_metainfo, Encode for Info", "src/torrent/file.rs: File::from_metainfo, Encode for File"]}
{"id": "C10", "title": "The recomputed info hash equals the hash of the received metadata", "statement": "If the metadata bytes are a canonical info dictionary that holds only the keys this client knows, then the info hash recomputed from the parsed Info is the SHA-1 of those bytes. With any additional key (for example private) the re-encoding differs from the received bytes.", "quantifier": "every canonical metadata dictionary with ASCII non-empty texts", "why_tests_cant": "ranges over all metadata dictionaries", "anchors": ["src/torrent/info.rs: compute_info_hash, Encode for Info, from_bytes", "src/peer/manager.rs: download"]}
{"id": "C11", "title": "Which metadata is accepted, and what is silently dropped", "statement": "Info parsing succeeds exactly when pieces, piece length and name are present with the right types; the file list kept is the sub-list of the well-formed file entries in order; consequently malformed entries are silently dropped, shifting later files, and an Info with neither length nor files is accepted although asking for its total length aborts.", "quantifier": "every decoded metadata value", "why_tests_cant": "ranges over all metadata values", "anchors": ["src/torrent/info.rs: from_metainfo, get_total_length, get_files", "src/torrent/file.rs: File::from_metainfo"]}
{"id": "C12", "title": "Bitfields are read most significant bit first", "statement": "The bit vector of a bitfield message has 8 entries per byte and entry k is bit (7 - k mod 8) of byte k/8; distinct bitfields give distinct vectors.", "quantifier": "every bitfield of every length, every bit position", "why_tests_cant": "all bit patterns of all lengths; a test checks single bytes", "anchors": ["src/messages/bitfield.rs: get_bitfield_as_bit_vector"]}
{"id": "C13", "title": "Block messages: layout, round trip, and exact panic condition", "statement": "A request message is 4-byte length 13, id 6, and three big-endian 32-bit numbers. Parsing a body of at least 8 bytes recovers index, offset and payload exactly and re-serialises to the same bytes; parsing a shorter body panics.", "quantifier": "every index/offset/length below 2^32, every body", "why_tests_cant": "all 32-bit numbers and bodies of every length, including short bodies sent by hostile peers", "anchors": ["src/messages/request.rs: RequestMessage::from_bytes, as_bytes", "src/messages/mod.rs: new_request, Message::as_bytes"]}
{"id": "C14", "title": "Handshake layout and round trip", "statement": "For a 20-byte info hash and a 20-byte peer id the outgoing handshake is the 68-byte BEP-3 handshake with the extension bit set; parsing any 68-byte handshake yields bytes 28..48 as info hash and re-serialises identically; a body shorter than 68 bytes panics. For other hash lengths the message is 48 + len(hash) bytes and not a valid handshake.", "quantifier": "every info hash, peer id and received body", "why_tests_cant": "all hashes, ids and received bodies of any length", "anchors": ["src/messages/handshake.rs: HandshakeMessage::new, from_bytes, as_bytes, get_info_hash", "src/messages/mod.rs: new_handshake"]}
{"id": "C15", "title": "Metadata requests are well formed for every piece index", "statement": "The metadata request for extension id e and index i is the frame <len><20><e>d8:msg_typei0e5:piecei<i>ee with a length prefix equal to the number of bytes following it; building it never panics.", "quantifier": "every extension id and every usize index", "why_tests_cant": "all 64-bit indices: the length prefix depends on the number of decimal digits", "anchors": ["src/messages/mod.rs: new_metadata", "src/messages/extension.rs: from_bytes, as_bytes"]}
{"id": "C16", "title": "Every framed message this client sends is self-delimiting", "statement": "Interested, request, metadata request and extension handshake frames carry a length prefix equal to the bytes that follow, so a receiver with the same framing recovers exactly id and body of every one of any sequence of them.", "quantifier": "every sequence of outgoing messages", "why_tests_cant": "every sequence of messages; a test sends a few in one order", "anchors": ["src/messages/mod.rs: new_interested, new_request, new_metadata", "src/peer/stream.rs: send_metadata_handshake_request, read_stream"]}
{"id": "C17", "title": "Exactly which received messages abort the connection thread", "statement": "Turning a received (id, body) into a message panics exactly when id is 6 or 7 and the body has fewer than 8 bytes, id is 19 and it has fewer than 68, or id is 20 and the body is empty or its bencode part makes the decoder panic; every other id and body is handled.", "quantifier": "every id and body", "why_tests_cant": "it says exactly when, so it ranges over every id and every body a hostile peer may send", "anchors": ["src/messages/mod.rs: Message::new_raw", "src/messages/extension.rs: from_bytes"]}
{"id": "C18", "title": "Magnet parsing", "statement": "A magnet link magnet:?xt=urn:btih:<40 hex digits>& followed by anything yields the 20 bytes denoted by the hex digits regardless of their case. Anything shorter than 60 bytes or without the magnet:? prefix is rejected; a link of exactly 60 bytes panics (even though it is a valid link); any other link whose byte 60 is not & yields 32 undecoded bytes.", "quantifier": "every byte string", "why_tests_cant": "every byte string, with the outcome for each; the tests use three literals", "anchors": ["src/torrent/magnet.rs: parse_magnet, hex_decode, byte_to_hex"]}
{"id": "C19", "title": "Compact peer lists", "statement": "A compact peer list of n bytes yields exactly n/6 endpoints in order, the k-th one having address bytes 6k..6k+4 and port bytes 6k+4..6k+6 big-endian; trailing bytes are ignored.", "quantifier": "every byte string", "why_tests_cant": "every byte string of every length", "anchors": ["src/tracker/peer_endpoint.rs: PeerEndpoint::from_bytes"]}
{"id": "C20", "title": "Endpoints printed by the tracker layer always parse back", "statement": "The endpoint text of every peer obtained from a tracker parses as an IPv4 socket address with exactly the same four address bytes and port, so connecting never panics on it, and different peers have different endpoint texts.", "quantifier": "every address and port", "why_tests_cant": "2^48 endpoints and the textual parser of the standard library; injectivity ranges over pairs", "anchors": ["src/tracker/peer_endpoint.rs: endpoint, is_reachable", "src/peer/stream.rs: StreamInterface::connect"]}
{"id": "C21", "title": "UDP tracker requests follow BEP 15", "statement": "The connect request is 16 bytes with the protocol magic, action 0 and the transaction id; the announce request for 20-byte info hash and peer id is 98 bytes with every field at its BEP 15 offset, echoing the connection id of the connect response. Of the fields that report progress only zeros are ever sent: no packet of any exchange says that anything is left to download.", "quantifier": "every connection id, transaction id, hash and peer id", "why_tests_cant": "every hash, id and connection id; a test compares one packet", "anchors": ["src/tracker/udp_tracker.rs: make_connection_message, make_announce_message"]}
{"id": "C22", "title": "UDP tracker exchange: retries, echoed connection id, accepted responses", "statement": "At most four connect packets are sent; the announce packet is sent only after a received packet and carries its bytes 8..16; a response of more than 26 bytes yields its bytes from 20 on (at most 4000 bytes); shorter ones are rejected, including the valid 26-byte response holding one peer. The transaction id and action of responses are not checked, and every packet of every exchange carries the same transaction id.", "quantifier": "every sequence of socket outcomes and every packet", "why_tests_cant": "every sequence of send failures, silences and packets, including packets of arbitrary size from anybody", "anchors": ["src/tracker/udp_tracker.rs: call, connect_to_tracker"]}
{"id": "C23", "title": "Percent-encoded info hashes are faithful and safe as file names", "statement": "The percent-encoding of an info hash decodes back to the hash, so different hashes use different cache files and tracker queries, and it contains no path separator, ampersand, question mark or space.", "quantifier": "every byte string", "why_tests_cant": "injectivity ranges over pairs of hashes; a test compares single encodings", "anchors": ["src/actors/torrent.rs: collect_info", "src/tracker/tcp_tracker.rs: call"]}
{"id": "C24", "title": "A piece is split over files without loss, overlap or displacement", "statement": "Splitting a piece over the file list produces writes whose data, concatenated in order, is exactly the part of the piece inside the torrent, and each byte at global position g is written to the file containing g at offset g minus the file's start; no write goes outside the file's declared length; splitting never panics while arithmetic stays below 2^64.", "quantifier": "every file list (including empty files), piece index, piece length and piece", "why_tests_cant": "every alignment of pieces and files, including empty files and files smaller than a piece, and the overflow boundary", "anchors": ["src/torrent/writer.rs: get_file_writers, FileParser"]}
{"id": "C25", "title": "Writing all pieces in any order, with repetitions, reconstructs every file", "statement": "Starting from an empty disk, after each piece of the torrent has been written at least once, in any order, every non-empty file holds exactly its bytes. Files of length zero are not guaranteed to exist.", "quantifier": "every file list with distinct paths, every piece length, every write order with repetitions", "why_tests_cant": "every order of writing with repetitions: factorially many, for every layout", "anchors": ["src/torrent/writer.rs: write, write_to_filesystem"]}
{"id": "C26", "title": "Interrupted downloads are repaired by a later run", "statement": "If any history of correct piece writes is cut at any point (crash), and then all pieces are written again in any order, every non-empty file holds exactly its bytes; more generally any initial content no longer than the file's length is overwritten. Until then each byte of a file is the right one, or the one that was there before, or a zero where nothing was. A pre-existing longer file keeps its stale tail.", "quantifier": "every crash point, every earlier history, every later order", "why_tests_cant": "every point at which the process may be killed, after every history", "anchors": ["src/torrent/writer.rs: write_to_filesystem"]}
{"id": "C27", "title": "Downloads stay inside the working directory only for sanitised paths", "statement": "If path components are non-empty, contain no slash and are neither . nor .., the bytes are written below the working directory at exactly these components. Otherwise this is not guaranteed: a component .. or an absolute component makes the client write outside it.", "quantifier": "every path component list", "why_tests_cant": "metadata comes from strangers: every list of path components", "anchors": ["src/torrent/writer.rs: write_to_filesystem", "src/torrent/file.rs: from_metainfo"]}
{"id": "C28", "title": "Pieces partition the torrent", "statement": "The number of pieces is the total length divided by the piece length rounded up; the real lengths of the pieces sum to the total; every piece but the last has full length and the last is non-empty; the length computation never underflows for a valid index.", "quantifier": "every total length and positive piece length below overflow", "why_tests_cant": "every pair of 64-bit lengths, including the overflow boundary", "anchors": ["src/peer/download/mod.rs: real_piece_length", "src/actors/torrent.rs: Handler<PeerFound> for TorrentActor", "src/torrent/info.rs: get_total_length"]}
{"id": "C29", "title": "Block requests tile the piece exactly when the piece is block aligned", "statement": "The block requests of a piece are consecutive, non-overlapping, of 1 to 16384 bytes and cover exactly the piece, if the piece length is a multiple of 16384 or the piece is the last. Otherwise the last request of the piece reaches beyond the end of the piece.", "quantifier": "every total length, piece length and piece index", "why_tests_cant": "every combination of lengths and indices; the violation appears only when the piece length is no multiple of 16 KiB", "anchors": ["src/peer/download/block.rs: next_block, get_block_size", "src/peer/download/mod.rs: Downloadable::download"]}
{"id": "C30", "title": "Framing: buffered messages are read back one by one, whatever else arrives meanwhile", "statement": "If a complete non-keep-alive message is buffered, reading returns exactly its id and body and consumes exactly its bytes, whatever further bytes arrive during the read; hence any sequence of buffered messages is read back in order.", "quantifier": "every message sequence, every arrival schedule of later bytes", "why_tests_cant": "the kernel may cut and delay the stream anywhere: every arrival schedule; a mock stream delivers everything at once", "anchors": ["src/peer/stream.rs: read_stream, peek_and_read"]}
{"id": "C31", "title": "Framing: a message body may arrive in any number of segments", "statement": "If the 5-byte header is buffered and the body arrives in arbitrary segments so that it is complete by the 39th attempt, the same message is returned and exactly its bytes are consumed; if it is not, None is returned with the header already consumed.", "quantifier": "every segmentation of the body", "why_tests_cant": "every segmentation of the body over up to 43 socket operations; a mock stream never delivers in parts", "anchors": ["src/peer/stream.rs: read_stream, peek_and_read"]}
{"id": "C32", "title": "Framing breaks on keep-alives and split headers", "statement": "Reading a keep-alive followed by another message swallows the first byte of the next message and reports it as the id of an empty message; a length prefix or handshake split across segments is misread. Framing is therefore not independent of segmentation. A connection closed after the four bytes of a length gives a choke message for the lengths 0 and 1 and no message for any other.", "quantifier": "every following message; existence of a segmentation", "why_tests_cant": "needs control over how bytes are cut into segments, which mock streams do not have, and every following message", "anchors": ["src/peer/stream.rs: read_stream"]}
{"id": "C33", "title": "Peer state is a function of the received message history", "statement": "After any sequence of messages: the peer is choked iff the last choke/unchoke message was a choke or there was none; bitfield, extension ids and metadata size are those of the last bitfield / extension handshake; the peer is active iff the last handshake carried the expected info hash; nothing else changes these.", "quantifier": "every message sequence", "why_tests_cant": "every sequence of messages of any length", "anchors": ["src/peer/mod.rs: apply_message, apply_content, is_ready, is_choked, is_active"]}
{"id": "C34", "title": "What a successful peer initialisation guarantees", "statement": "Initialisation succeeds only if the first message read was a handshake carrying our info hash, and by at most ten further messages the peer had unchoked us and announced a non-zero metadata size; it sends exactly handshake, then interested, then the extension handshake, and nothing but the handshake if the remote handshake does not match.", "quantifier": "every peer behaviour and arrival schedule", "why_tests_cant": "every behaviour of the remote end and every arrival schedule", "anchors": ["src/peer/manager.rs: init_peer"]}
{"id": "C35", "title": "Request/response discipline of a download", "statement": "During a download at most one request more than the number of blocks received so far is outstanding, every requested block index is the number of blocks received so far and below the capacity, and on success the data is the concatenation, in arrival order, of exactly capacity received block payloads.", "quantifier": "every peer behaviour", "why_tests_cant": "every behaviour of the remote end; the tests use one obedient mock", "anchors": ["src/peer/buffer.rs: MessageBuffer", "src/peer/download/mod.rs: execute"]}
{"id": "C36", "title": "A download ends within eleven silent rounds but an active peer can prolong it for ever", "statement": "A download returns after at most eleven consecutive rounds without a message; it returns ChokedPeer in the round in which a choke is the latest choke state; but for every number of rounds there is a peer that keeps the download running by sending irrelevant messages.", "quantifier": "every peer behaviour, every number of rounds", "why_tests_cant": "termination for every behaviour and non-termination for some: neither can be observed by running", "anchors": ["src/peer/download/mod.rs: execute"]}
{"id": "C37", "title": "Only verified pieces are returned", "statement": "If downloading a piece succeeds then the SHA-1 of the returned bytes equals the 20-byte hash recorded in the metadata for that piece index, whatever the peer sent in whatever order.", "quantifier": "every peer behaviour, every metadata, every index", "why_tests_cant": "every behaviour of a hostile peer and every metadata", "anchors": ["src/peer/manager.rs: download", "src/torrent/info.rs: verify_piece, get_piece"]}
{"id": "C38", "title": "The piece pool is a FIFO queue", "statement": "After creation with n the pool yields 0..n-1 in order; for any sequence of inserts and pops it behaves as a first-in first-out queue, with nothing lost or duplicated.", "quantifier": "every operation sequence", "why_tests_cant": "every sequence of operations of any length", "anchors": ["src/peer/piece_pool.rs: PiecePool::new, pop, insert"]}
{"id": "C39", "title": "No piece is lost or duplicated while downloading", "statement": "In every reachable state of a torrent (any interleaving of peer discovery, five download workers, the torrent actor and the writer, any download results) every piece index is in exactly one place: waiting in the pool, in flight, or completed; as long as no worker aborts.", "quantifier": "every schedule and every download outcome", "why_tests_cant": "every interleaving of torrent actor, five workers, writer and trackers, with every outcome of every download", "anchors": ["src/actors/torrent.rs: Handler<PeerFound>, Handler<PieceDownloadSuccessfull>, Handler<PieceDownloadFailed>", "src/actors/connection.rs: Handler<PieceRequested>", "src/peer/piece_pool.rs: PiecePool"]}
{"id": "C40", "title": "Concurrency bound and work conservation", "statement": "At most five pieces are in flight at any time, and once downloading has begun fewer than five are in flight only if no piece is waiting.", "quantifier": "every schedule", "why_tests_cant": "every interleaving of the concurrent actors; a test sees one schedule", "anchors": ["src/actors/torrent.rs: Handler<PeerFound>, Handler<PieceDownloadSuccessfull>, Handler<PieceDownloadFailed>", "src/actors/connection.rs: Handler<PieceRequested>"]}
{"id": "C41", "title": "Each piece is handed to the writer at most once, and exactly once when done", "statement": "In every execution each piece index is sent to the writer at most once; when nothing is waiting or in flight, every index has been sent exactly once.", "quantifier": "every schedule", "why_tests_cant": "every interleaving of the concurrent actors, with failures and retries anywhere", "anchors": ["src/actors/torrent.rs: Handler<PieceDownloadSuccessfull>", "src/actors/writer.rs: Handler<PieceReady>"]}
{"id": "C42", "title": "End to end: disk contents are correct under every schedule", "statement": "In every reachable state every byte this client has written equals the torrent's byte at that place, provided hashes identify pieces; each other byte of its files is the one that was there before, or a zero where nothing was; and when all pieces are completed and written every non-empty file is exactly right.", "quantifier": "every schedule, every peer behaviour, every crash point", "why_tests_cant": "every interleaving, every peer behaviour and every crash point; a test sees one schedule", "anchors": ["src/actors/torrent.rs: TorrentActor", "src/actors/connection.rs: Handler<PieceRequested>", "src/actors/writer.rs: Handler<PieceReady>", "src/torrent/writer.rs: write", "src/peer/manager.rs: download"]}
{"id": "C43", "title": "Downloading starts only once more than ten peers were reported", "statement": "No piece is requested before metadata is known and an eleventh peer has been reported; with at most ten reported peers no piece is ever requested.", "quantifier": "every schedule", "why_tests_cant": "the negative half says that something never happens in any execution", "anchors": ["src/actors/torrent.rs: Handler<PeerFound>"]}
{"id": "C44", "title": "Peer selection prefers reliable peers", "statement": "The selected endpoint belongs to a known peer; if some peer failed fewer than 2 times so did the selected one, otherwise if some peer failed fewer than 4 times so did the selected one; selection panics only if no peer is known, which cannot happen when it is called.", "quantifier": "every peer list, every shuffle", "why_tests_cant": "the choice is random; the claim is about every shuffle and every peer list", "anchors": ["src/actors/torrent.rs: Peer::find_suitable_peer"]}
{"id": "C45", "title": "Failure and success counters count", "statement": "For every known peer entry the failure and success counters equal the number of failures and successes reported for its endpoint since it was added.", "quantifier": "every history", "why_tests_cant": "every history of reports, successes and failures", "anchors": ["src/actors/torrent.rs: Peer::update_failed, update_sucess"]}
{"id": "C46", "title": "Progress", "statement": "Once downloading has begun and not all pieces are completed, some piece is in flight (no deadlock); completed pieces stay completed and every success adds one; the number of steps an execution can take is bounded by the work left plus a constant for each reported peer and each failed download; an execution that has come to rest with all workers alive has put every non-empty file right; and completion stays possible as long as peers can deliver.", "quantifier": "every reachable state", "why_tests_cant": "liveness: every reachable state and every execution; a test that does not finish proves nothing", "anchors": ["src/actors/torrent.rs: TorrentActor", "src/actors/connection.rs: Handler<PieceRequested>", "src/actors/writer.rs: Handler<PieceReady>"]}
{"id": "C47", "title": "Extension messages carry what their sender put in", "statement": "A message with id 20 whose body is a sub-id, a bencoded dictionary and arbitrary trailing bytes is read as exactly that: message type, piece number and metadata size are the integers under those keys, the extension ids are the integers of dictionary m modulo 256, and the data is the trailing bytes, whatever they look like.", "quantifier": "every sub-id, dictionary (distinct text keys) and trailing data", "why_tests_cant": "all dictionaries and all trailing bytes, including data that itself looks like bencoding", "anchors": ["src/messages/extension.rs: from_bytes, build_extensions_map"]}
{"id": "C48", "title": "Honest peers suffice", "statement": "A peer that completes the handshake for the right torrent, unchokes and states a metadata size within ten read attempts, never chokes again, is never silent for ten attempts in a row and sends exactly the blocks of the requested piece with the right hash always makes the piece download succeed with exactly those bytes, however its messages are interleaved with other valid messages. Hence from every reachable state with all workers alive a torrent whose content exists can be completed with correct files.", "quantifier": "every torrent, piece, peer behaviour of that kind, and every reachable state", "why_tests_cant": "every arrival pattern of every obedient peer, and every state a torrent can be in", "anchors": ["src/peer/manager.rs: download, init_peer", "src/peer/download/mod.rs: execute", "src/peer/mod.rs: Peer", "src/actors/torrent.rs"]}
{"id": "C49", "title": "Honest peers supply the metadata", "statement": "A peer of that kind which states a metadata size n with extension ut_metadata and sends ceil(n/16384) metadata data messages makes the metadata request succeed with exactly the metadata those blocks spell.", "quantifier": "every metadata, block cut and arrival pattern", "why_tests_cant": "every arrival pattern of every obedient peer and every way to cut the metadata", "anchors": ["src/peer/manager.rs: get_info", "src/peer/download/info.rs"]}
{"id": "C50", "title": "Metadata is checked against the info hash", "statement": "Metadata obtained from a peer should hash to the info hash of the magnet link. This is false: for every info hash some peer gets metadata of another torrent accepted; afterwards every peer of the torrent that was asked for is rejected at the handshake.", "quantifier": "every info hash", "why_tests_cant": "needs a malicious peer and a universally quantified hash function", "anchors": ["src/peer/manager.rs: get_info", "src/torrent/info.rs: from_bytes, compute_info_hash"]}
{"id": "C51", "title": "A stored torrent description reads back as it was saved", "statement": "If saving the description of a torrent under ./downloads succeeded, reading it gives the same description (any names, any lengths, any piece hashes; trailing white space is harmless) and no other file was touched; a restarted client gets the same description again, whatever the network does, and changes nothing on disk.", "quantifier": "every description, file system, peer behaviour and number of restarts", "why_tests_cant": "all strings (escapes, UTF-8), all numbers up to 2^64-1, all peer behaviours", "anchors": ["src/torrent/info.rs: save, from_file", "src/torrent/file.rs: File", "src/actors/torrent.rs: collect_info"]}
{"id": "C52", "title": "An interrupted save is harmless", "statement": "A save of the description that stops early (full disk, crash) should not prevent the next start. This is false: every proper beginning of the saved text makes the next read panic (unless the cut is inside a non-ASCII character, when the file counts as absent), so for names in ASCII the torrent can never be started again, whatever the network does.", "quantifier": "every description and every cut point", "why_tests_cant": "every cut point of the text of every description", "anchors": ["src/torrent/info.rs: save, from_file", "src/actors/torrent.rs: collect_info"]}
{"id": "C53", "title": "A stored description belongs to the torrent asked for", "statement": "Different torrents use different files under ./downloads. The content is not checked, though: whatever description is stored under the name of an info hash is used, whatever its own info hash is.", "quantifier": "every pair of info hashes, every description", "why_tests_cant": "quantifies over all hashes, descriptions and hash functions", "anchors": ["src/actors/torrent.rs: collect_info", "src/torrent/info.rs: from_file"]}
{"id": "C54", "title": "A magnet link starts exactly one torrent", "statement": "Posting a magnet link with forty hexadecimal digits is answered with status 200 and starts exactly one torrent, for that hash, leaving all other torrents and the disk as they were. Any request either starts exactly one torrent or has no effect and is not answered with success; at any moment the torrents are those of the accepted requests, in order. Two wishes are false: links that are not understood get no answer at all (the handler aborts), and posting a link twice starts the torrent twice.", "quantifier": "every request body, every state of the process, every history", "why_tests_cant": "every byte string as a body, and every state and history of the process", "anchors": ["src/main.rs: add_magnet", "src/torrent/magnet.rs"]}
{"id": "C55", "title": "Trackers are asked for the right torrents", "statement": "Every question put to a tracker is about the hash of an accepted link, on behalf of the torrent of that link; no tracker is asked twice for the same torrent; and every tracker that lives and has nothing left to do has been asked for every torrent.", "quantifier": "every execution of the process with any number of requests", "why_tests_cant": "all interleavings of requests, mailboxes and lookups", "anchors": ["src/actors/trackers_interface.rs: Handler<TorrentRegistered>", "src/actors/tracker.rs: Handler<TorrentRegistered>", "src/actors/messages.rs: TorrentRegistered", "src/main.rs: add_magnet"]}
{"id": "C56", "title": "Peers reach the torrent they were found for", "statement": "A torrent hears only of peers contained in tracker answers to questions asked for itself, and, when the trackers are done, of every reachable peer in those answers, exactly once per answer.", "quantifier": "every execution, every tracker answer, every reachability of peers", "why_tests_cant": "all interleavings and answers", "anchors": ["src/actors/tracker.rs: Handler<TorrentRegistered>", "src/tracker/peer_endpoint.rs: is_reachable", "src/actors/messages.rs: PeerFound"]}
{"id": "C57", "title": "The client recovers from a network outage", "statement": "False: a tracker whose lookup aborts because no socket or route was available is never asked again; after one torrent has been added while the network was down, no torrent, old or new, ever hears of any peer again, whatever the network does.", "quantifier": "every continuation of every execution", "why_tests_cant": "it says that something never happens again in any continuation", "anchors": ["src/actors/tracker.rs: Handler<TorrentRegistered>", "src/tracker/udp_tracker.rs: call"]}
{"id": "C58", "title": "Torrents do not disturb each other", "statement": "Apart from writing, each torrent of a process behaves as some execution of it alone. On the common disk, torrents whose files are disjoint (or that are the same content) all keep what was right, get every written byte in place and complete; nothing outside their files and the saved descriptions changes. The program does not ensure disjointness: two different torrents whose file has the same name both complete and one of them has lost its content.", "quantifier": "every execution with any number of torrents", "why_tests_cant": "all interleavings of several torrents on one disk", "anchors": ["src/main.rs: add_magnet", "src/actors/torrent.rs: TorrentActor, collect_info", "src/actors/writer.rs: Handler<PieceReady>", "src/torrent/writer.rs: write"]}
{"id": "C59", "title": "A lookup returns exactly the peers in the tracker answer", "statement": "An HTTP tracker answering the query (which carries the percent-encoded hash and the peer id) with any bencoded dictionary yields exactly the peers in its compact list; a UDP tracker answering both packets with at least two peers yields exactly those that fit 4000 bytes; fewer than two peers and any other URL scheme (https included) are errors; with the built-in trackers a lookup aborts exactly if no socket or route is available.", "quantifier": "every hash, URL, dictionary, peer list and network behaviour", "why_tests_cant": "every answer of any length from the network", "anchors": ["src/tracker/mod.rs: get_peers_by_tracker", "src/tracker/tcp_tracker.rs", "src/tracker/udp_tracker.rs", "src/tracker/peer_endpoint.rs: from_bytes"]}
{"id": "C60", "title": "Digests and handshakes have the right size", "statement": "The hash function (SHA-1, modelled in full and checked on test vectors) gives twenty bytes for every input and pads without loss, so the handshake of any torrent has 68 bytes.", "quantifier": "every input, every torrent description", "why_tests_cant": "every input of every length", "anchors": ["src/torrent/info.rs: compute_info_hash, verify_piece"]}
{"id": "C61", "title": "A session sends only requests, and never too many", "statement": "Whatever the remote end does, a session that returns has sent the handshake, then (if the handshake was answered for the right torrent) an interested message and an extension handshake, then only requests for blocks of the piece (or of the metadata), in non-decreasing order, at most as many as there are blocks, each between 1 and 16384 bytes long and inside the torrent; a failed write sends the beginning of a message. For a piece of n blocks at most 137 + 17 n bytes are sent. Nothing is ever served: a remote end that behaves like this client is never found ready. The announced metadata size is the constant 28282.", "quantifier": "every behaviour of the remote end (any bytes, timing, read and write failures), every piece of every torrent", "why_tests_cant": "all message sequences and arrival schedules of unbounded length", "anchors": ["src/peer/manager.rs: init_peer, download, get_info", "src/peer/download/mod.rs: execute", "src/peer/download/block.rs: next_block", "src/peer/download/info.rs: next_piece", "src/peer/stream.rs: send_metadata_handshake_request, write_stream"]}
{"id": "C62", "title": "Any torrent can be downloaded from its link", "statement": "From any state the program can reach in which one tracker worker is alive, the link of any properly made torrent (any number of files, directories and pieces) can be downloaded to the last byte: there is a behaviour of trackers, peers and scheduler after which every non-empty file is on the disk byte for byte, the description is saved under the hash of the link, and no other torrent and nothing else on the disk has changed.", "quantifier": "every reachable state of the process, every torrent with ASCII names and sizes in range, every disk with room for its files", "why_tests_cant": "all torrents (file lists, sizes, piece counts) and all histories of the process", "anchors": ["src/main.rs", "src/actors/torrent.rs", "src/actors/tracker.rs", "src/actors/connection.rs", "src/actors/writer.rs", "src/torrent/writer.rs", "src/peer/manager.rs"]}
{"id": "C63", "title": "A torrent at rest is complete, and stays so over restarts", "statement": "In a process with several torrents, every torrent that has asked for pieces, has lost no download worker and has nothing left to do is complete on the disk (unless a peer sent wrong data with the right hash). What one run has completed, no later run damages, whether it downloads the same torrent again or unrelated ones.", "quantifier": "every execution with any number of torrents; every disk left by earlier runs", "why_tests_cant": "all interleavings of several torrents, all restarts", "anchors": ["src/main.rs", "src/actors/torrent.rs", "src/actors/writer.rs", "src/torrent/writer.rs"]}
{"id": "C64", "title": "The saved description is read exactly as UTF-8 and JSON prescribe", "statement": "A file left in the downloads directory is accepted as the description of a torrent exactly if it is UTF-8 text (RFC 3629) and JSON (RFC 8259) that describes this torrent: an object with the five fields in any order, optional ones possibly missing or null, unknown ones ignored, or the bare fields in an array; numbers in plain decimal below 2^64; strings with every escape, surrogate pairs included. No text describes two torrents, any other text aborts the torrent, and what the program itself saves is such a text.", "quantifier": "every file content; every torrent description", "why_tests_cant": "all byte strings, among them all JSON documents of any size and nesting", "anchors": ["src/torrent/info.rs: from_file, save", "src/torrent/file.rs: File"]}
{"id": "C65", "title": "No file is ever lost, and changes stay where they belong", "statement": "Whatever links are added, whatever peers send and whatever aborts: no directory and no file disappears, and no file gets shorter, except that a saved description of a torrent that was asked for is replaced when it was not even text. If the torrents' paths are plain names, everything that changed is a file of a torrent, a new directory on the way to one, a saved description or the new downloads directory. Otherwise this is false: truthful peers and a link can overwrite a file outside the working directory. Writing a piece aborts exactly if a directory has the name of one of its files or a file the name of one of its directories; after that the torrent writes nothing more. Saving and loading a description abort exactly in the listed cases.", "quantifier": "every execution of the process, with any torrents and any disk", "why_tests_cant": "all interleavings, all peers and all disk contents", "anchors": ["src/torrent/writer.rs: write, write_to_filesystem", "src/torrent/info.rs: from_file, save", "src/actors/torrent.rs: collect_info", "src/actors/writer.rs"]}
{"id": "C66", "title": "What exactly the bencode decoder accepts, refuses, chokes on and hangs on", "statement": "For every input the decoder does one of four things, and a grammar says which: it returns a value and the number of bytes read, it returns one of two errors (naming the digits that are no 64-bit number, or the position behind a dictionary key that is not text), it aborts (input cut off), or it runs for ever (at a list item that starts no value). The grammar accepts more than bencode: any byte may end a number or a length, leading zeros are ignored, keys may come in any order and repeatedly (the last one counts), an input that starts no value reads as nothing. No input has two readings.", "quantifier": "every byte string", "why_tests_cant": "infinitely many inputs in every class, and non-termination is not observable by a test", "anchors": ["src/bencode/decode.rs: Decoder::decode, parse_list, parse_dictionary, parse_string, parse_integer"]}
{"id": "C67", "title": "Failed writes go unnoticed, and every session with a finite peer ends", "statement": "The result of a session with a peer depends only on what arrives: whether writes succeed makes no difference, except for the third write of a connection (the extension handshake), whose failure ends the session with its own error exactly if the peer has greeted with the right info hash. A session with a peer that sends finitely many bytes returns, however the bytes are spread over time, unless it meets a message that aborts the worker (listed) or on which the decoder hangs; a metadata session also aborts if the peer states a size without naming ut_metadata, and aborts or hangs if the decoder does so on the blocks received.", "quantifier": "every peer, every arrival schedule, every pattern of failing writes", "why_tests_cant": "all arrival schedules and all combinations of failing writes", "anchors": ["src/peer/manager.rs: init_peer, download, get_info", "src/peer/stream.rs: write_stream, send_metadata_handshake_request", "src/peer/download/mod.rs: execute"]}
{"id": "C68", "title": "Every torrent that keeps moving is completed in the end", "statement": "In an execution that never ends, with any number of torrents at once: a torrent that has requested something, never stops with something left to do, loses none of its download workers and has finitely many failed downloads is complete on the disk from some moment on, for good (or a peer has sent wrong data with the right hash). Nothing has to be assumed about the trackers: on behalf of one torrent there are at most eighteen lookups and one report for each peer in their answers. Without a bound on the failures it is not so: the client asks for the same pieces forever if nobody accepts a connection.", "quantifier": "every infinite execution: all interleavings of requests, trackers, torrents, workers and writers, all peers", "why_tests_cant": "statement about executions without end, over all schedules", "anchors": ["src/actors/torrent.rs: Handler<PeerFound>, Handler<PieceDownloadSuccessfull>, Handler<PieceDownloadFailed>", "src/actors/connection.rs", "src/actors/writer.rs", "src/actors/tracker.rs", "src/actors/trackers_interface.rs", "src/main.rs"]}
{"id": "C69", "title": "Every way in which asking a tracker can end", "statement": "A lookup of an HTTP tracker sends one query and is decided by the response: it reports exactly the peers of the compact string under 'peers' of the bencoded dictionary the body starts with; it is an error if the body is another value, has no such string, or is malformed; it aborts exactly if the body is cut off inside a value, and never ends exactly if the decoder never ends on it. A lookup of a UDP tracker ends in one of six ways, decided by which packets could be sent and which datagrams arrive: at most four requests for a connection until any datagram arrives, one announce that echoes its connection id, and one answer, of which the bytes 20 to 4000 are the peers. Answers that list the peers as dictionaries, which the original protocol prescribes, are not understood.", "quantifier": "all trackers, hashes, HTTP responses, sequences of sent and lost packets, and datagrams", "why_tests_cant": "the responses of trackers are unbounded; the tests try one response", "anchors": ["src/tracker/mod.rs: get_peers_by_tracker", "src/tracker/tcp_tracker.rs: call", "src/tracker/udp_tracker.rs: call, connect_to_tracker", "src/tracker/peer_endpoint.rs: from_bytes"]}
{"id": "C70", "title": "What is received decides how a session ends, and exactly how", "statement": "The result of a session with a peer, for a piece or for the metadata, is a function of what the successive attempts to read bring (and of whether the third write fails): it fails at the first attempt unless that is a handshake for the torrent; it fails after ten more unless the peer has by then unchoked the client and stated a metadata size; from there on the first of these decides: enough blocks have come (then their concatenation in the order of arrival is checked against the hash, or decoded), the last choke or unchoke message chokes, eleven attempts from the beginning or ten after a message bring nothing, the peer is to be asked for metadata and has not named the extension. It aborts or never ends exactly if a message that does so comes before that, or the metadata received does so. Each of these statements holds in both directions, and at most one ending, at one moment, fits what is received.", "quantifier": "all peers: every sequence of bytes, segmentation, timing, error and end of the connection; all torrents, pieces, builds", "why_tests_cant": "peers send anything at any time; the tests replay a few messages", "anchors": ["src/peer/manager.rs: get_info, download, init_peer", "src/peer/download/mod.rs: execute", "src/peer/buffer.rs: MessageBuffer", "src/peer/mod.rs: apply_message, read_message", "src/peer/stream.rs: read_stream"]}
{"id": "C71", "title": "How deeply nested a text may be before reading it ends the whole process", "statement": "Reading bencoded text uses the call stack once per value that is open inside another. On a stack with space for n such calls the process is killed exactly when at some point of the text, before the decoder stops for another reason, more than n values are open; otherwise the result is that of an unlimited stack. For the encoding of a value what counts is its nesting. Texts of at most n bytes are always safe. But no stack suffices: a text of 2n+2 bytes, fully valid, which as the body of an extension message would be read and ignored, kills the process. (That a text from a peer or tracker cannot kill the process is false and refuted.)", "quantifier": "all texts; all stack sizes; all values", "why_tests_cant": "needs inputs of every depth; a test that overflows the stack takes the test process down", "anchors": ["src/bencode/decode.rs: Decoder::decode, parse_list, parse_dictionary", "src/messages/extension.rs: from_bytes"]}
{"id": "C72", "title": "How long a session with a peer takes", "statement": "An attempt to read from a peer takes at most eight seconds, whatever the peer does (and can take that long), and a tenth of a second if nothing comes. A session for a piece or for metadata makes at most 22 attempts and ten more for each message that came, so it lasts at most eight seconds for each of these. A peer whose handshake does not begin to arrive within a tenth of a second after it was asked is given up with a handshake error. A session that goes on ends, with a result, at the latest 1.1 seconds after the last sign of life. There is no other limit: for every duration there is a peer, sending nothing of use, with which a session takes that long. (That a session takes a limited time is false and refuted.)", "quantifier": "all moments at which anything arrives, or an error or the end of the connection occurs; all pieces; all durations", "why_tests_cant": "real delays: a test would have to wait, and could only try some timings", "anchors": ["src/peer/stream.rs: read_stream, peek_and_read, has_messages", "src/peer/mod.rs: Peer::read_message", "src/peer/download/mod.rs: execute", "src/peer/manager.rs: init_peer, download, get_info"]}
{"id": "C73", "title": "A near peer that keeps talking gives what is asked for, in time", "statement": "A peer whose handshake for the torrent arrives within a tenth of a second after the connection was opened, whose messages then follow each other within a second, which does not choke us, unchokes us and states a metadata size soon (the messages until then, and the tenths of a second until then, are together at most ten), and which sends as many blocks as the piece has, with the right hash, gives exactly the piece; one that sends as many metadata blocks as the size it states, which can be read as a description, gives that description. In both cases the session is over at most 200 milliseconds after the last message. Every seed (unchoke message, size, blocks of at most 16 KiB) is such a peer if its second message comes less than 0.9 seconds after its handshake.", "quantifier": "all moments at which the messages arrive, several at once or apart; all torrents, pieces, peers, builds; all other messages in between", "why_tests_cant": "real delays, in every combination: a test would have to wait, and could only try some timings", "anchors": ["src/peer/stream.rs: read_stream, peek_and_read, has_messages", "src/peer/manager.rs: init_peer, download, get_info", "src/peer/download/mod.rs: execute", "src/peer/mod.rs: read_message"]}
{"id": "C74", "title": "Nothing else a peer says matters", "statement": "What a session for a piece gives depends on a peer only through: whether its first message is a handshake for the torrent; when it chokes and unchokes; in which attempts it states a metadata size, and whether that is zero; and the data of the blocks it sends. For the metadata: the size itself, whether the extension is named, and the data of metadata blocks. Two peers that agree on these give the same result, however they differ in their bitfield, in have messages and other kinds, in the piece and the offset they state with a block, in their id, reserved bytes, address, and numbers of extensions. (So a bitfield that denies having the piece does not stop the client from asking, and a block of another piece counts as one of this piece.)", "quantifier": "all pairs of peers that mean the same at every attempt; all torrents, pieces, builds, own ids; and all pairs of message sequences that have arrived", "why_tests_cant": "a statement about pairs of executions: no set of single runs settles it", "anchors": ["src/peer/mod.rs: apply_message, read_message", "src/peer/manager.rs: init_peer, download, get_info", "src/peer/download/mod.rs: execute", "src/peer/download/block.rs", "src/peer/download/info.rs", "src/messages/mod.rs: new_raw"]}
{"id": "C75", "title": "The memory a peer can make the client reserve", "statement": "Each attempt to read a message reserves exactly the size of the message it brings, all of which has been received, and never 4 GiB or more. So the reservations of a session that were for messages are in total no larger than what has been received, and the piece or description it ends with is no larger than these. An attempt in vain reserves nothing, or one byte less than the first four received bytes announce. But such a reservation is not limited by what has been received: five bytes make the client reserve any amount below 4 GiB (one less than announced), for each of its five workers and again at the next attempt. And a description of at most 80 bytes makes the queue of pieces arbitrarily long (as many entries as its sizes imply, whatever hashes there are). (That reservations are limited by what has been received is therefore refuted.)", "quantifier": "all peers: every sequence of bytes, segmentation, timing, error and end of the connection; all torrents, pieces; all amounts below 4 GiB; all queue lengths", "why_tests_cant": "a test cannot measure every amount, and the smallest input that exhausts a machine depends on the machine", "anchors": ["src/peer/stream.rs: read_stream", "src/peer/manager.rs: download, get_info", "src/peer/buffer.rs: assemble_content", "src/peer/piece_pool.rs: PiecePool::new", "src/actors/torrent.rs: Handler<PeerFound>"]}
{"id": "C76", "title": "A torrent is what its link says", "statement": "If no peer lies when it is asked for a description, the descriptions saved earlier are right, and no torrent has files in the directory where descriptions are kept, then at every moment every torrent that has a description has the one whose hash its link names, and every saved description has the hash under which it is saved: through failed and interrupted saves, aborts, restarts from such a disk, any number of torrents and any schedule. The last condition is needed: with all peers telling the truth, an empty disk and plain paths, the download of one torrent, whose file lies there under the name of another hash, makes the client take a link with that hash for a third torrent, without asking any peer. (That truthful peers suffice is false and refuted.)", "quantifier": "every sequence of links, peer contacts, downloads, writes and failures; all disks at the start; all builds", "why_tests_cant": "unbounded interleavings of several torrents that share one disk; the counterexample needs a torrent made for the purpose", "anchors": ["src/actors/torrent.rs: collect_info", "src/torrent/info.rs: from_file, save, compute_info_hash", "src/torrent/writer.rs: write", "src/torrent/magnet.rs: parse_magnet", "src/peer/manager.rs: get_info"]}
{"id": "C77", "title": "The log leaves the downloads alone", "statement": "Whatever is written to the log, and whenever: as long as no torrent has a file called test.log in the working directory, the log holds exactly the lines logged since the start, in order, and in everything but that file the program does the same as without a log; in particular several torrents side by side still come out right. Starting the program empties or makes that one file and changes nothing else on the disk, and fails exactly if a directory has its name. A torrent may have a file of that name, however: then all its pieces arrive and are written, and the file is wrong because of what is logged. A line always goes where the lines before it ended, even into the middle of such a file. (That downloads are right whatever a torrent's file is called is false and refuted.)", "quantifier": "all disks, links, schedules, peers, and all lines logged at any moments; all builds", "why_tests_cant": "the log is written through another open file with its own position, at moments nobody controls; unbounded interleavings", "anchors": ["src/main.rs: main", "src/torrent/writer.rs: write_to_filesystem", "src/actors/torrent.rs: collect_info", "src/torrent/info.rs: save, get_files"]}
{"id": "C78", "title": "What one slow handler keeps from happening", "statement": "Requests are answered, and torrents live, on the worker threads of the HTTP server; trackers on the main thread; downloads and writes on threads of their own. Whatever those threads do, the program does nothing beyond what the other properties describe. A worker thread that is free takes any request and any mail of its torrents. While it is occupied with one mail of one torrent, none of its other torrents moves and no request handed to it is answered; if the peer that is asked for the description never lets go, that is so forever, and exactly the peers are described that never let go. If it is so of all worker threads, nothing is ever written or added again. The main thread deals with the answers of trackers one at a time and always comes to the end of one; until then nothing that the torrents send is passed on to the threads for downloads and for writing, so that only what had been passed on before is downloaded and written. (That a torrent with free threads begins to download what it has asked for is false and refuted: nothing of it begins until all peers of another torrent have been tried. That torrents are safe from each other's peers is false and refuted, for any number of worker threads; with one processor a peer can stop the whole client.)", "quantifier": "all numbers of worker threads, disks, links, schedules of all threads, peers and trackers; all builds", "why_tests_cant": "needs a peer that never lets go, two torrents on the same thread, and an unbounded future in which nothing happens", "anchors": ["src/main.rs: main, add_magnet", "src/actors/torrent.rs: TorrentActor::new, handle(PeerFound), collect_info", "src/peer/download/info.rs", "src/actors/trackers_interface.rs", "src/actors/tracker.rs: handle"]}
{"id": "C79", "title": "Which peers of an answer are heard of, and what it costs to find out", "statement": "A torrent only ever hears of peers, and only ever asks peers for data, that accept a connection within 50 milliseconds; if all its peers are farther away, it never does anything, however many they are and whatever they have. An answer of a tracker has at most 663 peers, whatever arrives; each is tried at most once, so at most 11934 connections are tried for a torrent and the thread that all trackers share is occupied for at most 596.7 seconds by them, and by one answer for at most 663 attempts; peers that do not react take 50 milliseconds each. (That a torrent that was given peers which accept connections hears of one of them is false and refuted: 663 peers, 33 seconds, none heard of.)", "quantifier": "all disks, links, schedules, latencies of all addresses, tracker answers; all builds", "why_tests_cant": "real latencies are not at a test's disposal; the bounds range over all answers of eighteen trackers and all schedules", "anchors": ["src/tracker/peer_endpoint.rs: is_reachable, from_bytes", "src/actors/tracker.rs: handle", "src/tracker/udp_tracker.rs", "src/actors/torrent.rs: handle(PeerFound)"]}
{"id": "C80", "title": "What is on the disk already saves nothing", "statement": "As long as no torrent has a file inside the directory of the saved descriptions, nothing the program does towards trackers and peers depends on what other files are on the disk: two runs with the same events on disks that hold the same descriptions ask the same peers for the same pieces, hand the same data to the writer and say the same to the trackers. Every piece that is handed to the writer was delivered by a peer in this very run, and everything that was delivered is handed over or about to be. (The wish that a download which is complete on the disk is recognised after a restart is false and refuted: all pieces are asked for again.)", "quantifier": "all pairs of disks, links, schedules, peers and trackers; all numbers of torrents, files and pieces; all builds", "why_tests_cant": "compares two executions for every possible disk content and every schedule", "anchors": ["src/actors/torrent.rs: handle, collect_info", "src/actors/writer.rs: handle", "src/torrent/writer.rs: write", "src/torrent/info.rs: from_file, save", "src/main.rs: main"]}
{"id": "C81", "title": "How much of a torrent can wait in memory", "statement": "The pieces that were downloaded and not yet written (in the queue of the writer or on their way there) are together never longer than the torrent, however fast peers and however slow the disk are, unless a peer has sent wrong data with the right hash; so for the whole program, what waits in memory is never more than all torrents asked for together, and nothing of a torrent whose description is unknown waits. No less will do: from any moment at which nothing has been written yet, peers can deliver the whole torrent while the disk stays as it was, and all of it waits in memory.", "quantifier": "all torrents, peers, schedules and disks; all builds", "why_tests_cant": "a bound on memory over all interleavings of downloads and writes; the worst case needs a disk that takes arbitrarily long", "anchors": ["src/actors/torrent.rs: handle(PieceDownloadSuccessfull)", "src/actors/writer.rs: handle(PieceReady)", "src/actors/connection.rs: handle", "src/peer/piece_pool.rs"]}
{"id": "C82", "title": "A seed that answers what it is asked gives what it has", "statement": "A session with a remote program that reacts to what it is sent has the outcome of a session with some fixed schedule of arrivals, so all that holds for every schedule holds for every remote program. A seed that greets, unchokes the client, states a metadata size within ten attempts to read and answers each request for a block within nine attempts gives the client any piece it has, if the piece length is a multiple of 16 KiB or the piece is the last one; and the metadata, if it states their size and a number for ut_metadata. The network may cut every message of the seed after its greeting into segments, wherever it likes behind the first five bytes, as long as the last segment comes within 42 reads or peeks of the first; both limits are needed: a seed whose messages are cut within the first five bytes, or come to their end later, may give nothing, though the same seed would otherwise give the piece. If the piece length is not a multiple of 16 KiB, no piece but the last can be had from a seed that ignores requests reaching beyond the piece: the session always ends as idle.", "quantifier": "all remote programs (any type of states and any reaction); all such seeds, torrents, pieces, delays, other opening messages and ways to cut the messages; both builds", "why_tests_cant": "a test runs against a recorded conversation; that a seed's own reactions always lead to the piece concerns every seed and the whole exchange of requests and answers", "anchors": ["src/peer/mod.rs: read_message, apply_message, send_message", "src/peer/manager.rs: download, get_info, init_peer", "src/peer/download/mod.rs: execute, Downloadable::download", "src/peer/download/block.rs: next_block", "src/peer/download/info.rs: next_piece", "src/peer/buffer.rs: request_next_message"]}
{"id": "C83", "title": "Seeds that answer complete the torrent, each piece requested once and in order", "statement": "A torrent requests its pieces in order, from the first to the last, and after them those whose download has failed, in the order in which the failures became known; nothing else. If all connections of a torrent's downloads go to seeds that have the whole content, unchoke, state a metadata size within ten attempts to read and answer requests within nine, in segments as in C82, and the piece length is a multiple of 16 KiB (or there is one piece only), then no download fails, no worker is lost, every piece is requested once, and in every execution that goes on forever without stopping while there is something to do the torrent, once begun, is complete on the disk from some moment on. If the piece length is not a multiple of 16 KiB and the seeds ignore requests that reach beyond a piece, no piece but the last one ever arrives.", "quantifier": "all torrents, contents, seeds of this kind, interleavings of all parts of the program and of several torrents; executions without end; both builds", "why_tests_cant": "a test runs a torrent once, with one order of events; completion in every fair execution and the order of the requests after any number of failures concern infinitely many executions", "anchors": ["src/actors/torrent.rs: Handler<PieceDownloadSuccessfull>, Handler<PieceDownloadFailed>, Handler<PeerFound>", "src/peer/piece_pool.rs: pop, insert", "src/actors/connection.rs: Handler<PieceRequested>", "src/peer/manager.rs: download", "src/peer/download/block.rs: next_block", "src/actors/writer.rs: Handler<PieceReady>"]}
{"id": "C84", "title": "From the link to the last byte", "statement": "If some of the trackers stay alive and take and finish what they are given, each of them is asked exactly once for every torrent, and every peer of their answers that accepts connections is reported to the torrent. If the posted links are those of properly made torrents, every peer that is asked for a description has it, and every peer that is asked for pieces is a seed as in C83, then no torrent ever ends, and no torrent and no saved file ever has a wrong description. If these trackers name more than ten peers of a torrent that accept connections, then, in every execution that goes on without stopping while there is something to do, the torrent gets its description, requests its pieces, and from some moment on all its files are complete on the disk.", "quantifier": "all torrents (several at once), posted links, trackers and their answers, peers of this kind, interleavings of all parts of the program; executions without end; both builds; a disk on which earlier descriptions may lie", "why_tests_cant": "an end-to-end test runs one torrent against one network once; this concerns every fair execution of all actors together, from the request that adds the link on", "anchors": ["src/main.rs: main, add_magnet", "src/actors/trackers_interface.rs", "src/actors/tracker.rs", "src/actors/torrent.rs: Handler<PeerFound>, collect_info", "src/torrent/info.rs: from_file, save", "src/peer/manager.rs: get_info, download", "src/actors/connection.rs", "src/actors/writer.rs"]}
{"id": "C85", "title": "How long a torrent takes", "statement": "A torrent downloads at most five pieces at a time, however many peers it knows, and keeps five downloads going as long as pieces are missing. So if no download takes less than some time L, the data of N pieces does not reach the writer in less than N/5 (rounded up) times L. Conversely, if a free worker takes a waiting piece within a time s, a download ends within f, its result is handled within h, and the writer writes the piece it is at within w, and if no download fails, then the files of the torrent are complete at most N/5 (rounded up) times s+f+h plus N times w after it requested its first pieces. If the peers are seeds as in C83, no download fails and the bound holds without that proviso.", "quantifier": "all torrents, numbers of pieces, peers, bounds on the duration of the parts, clocks, interleavings of all parts of the program in executions without end; both builds", "why_tests_cant": "a bound on every execution cannot be measured in one; a test with a fixed number of pieces and peers shows one duration on one machine and cannot tell whether more peers would help", "anchors": ["src/actors/torrent.rs: TorrentActor::new, Handler<PeerFound>, Handler<PieceDownloadSuccessfull>, Handler<PieceDownloadFailed>", "src/actors/connection.rs", "src/actors/writer.rs", "src/peer/piece_pool.rs"]}
{"id": "C86", "title": "How long a session takes with a peer at a distance", "statement": "A peer whose answers take at most a tenth of a second to come back, that has a piece, unchokes the client and states a metadata size, gives the piece after a time that can be told exactly: the time its opening takes to be read, a tenth of a second in which the client waits for nothing, and then for every block of 16 KiB one round trip plus the time the peer takes for it, one block after the other. If a block takes more than a second, the session fails a second after the request for it. Metadata takes as long likewise. So a piece never comes faster than one block in every round trip. A peer whose answers take more than a tenth of a second to come back is of no use at all: every session with it fails after a tenth of a second.", "quantifier": "all distances in milliseconds, peers as described with any delays and openings, pieces of any length, descriptions, both builds; for distances above 100 ms all peers whatsoever that speak when spoken to", "why_tests_cant": "a duration measured in a test holds for one distance and one peer on one machine; tests run against a peer on the same machine, where the distance is nothing", "anchors": ["src/peer/stream.rs: StreamInterface::connect, has_messages, peek_and_read, read_stream", "src/peer/manager.rs: init_peer, get_info, download", "src/peer/download/mod.rs: execute", "src/peer/mod.rs: Peer::read_message"]}
{"id": "C87", "title": "What a full disk does to a torrent", "statement": "Whatever the operating system refuses while a torrent is written (making a directory, opening a file, taking some or all bytes of a write): nothing but the writer notices; requests, peers, counters and messages are as if the disk took everything. No byte is ever spoilt: each byte of the torrent's files is the right one, or the one that was there before, or a zero where nothing was, and nothing else on the disk changes. But what was not taken of a piece is never written again, even if there is room later: it is false that a torrent which received everything, and whose disk takes everything in the end, has its files. The writer ends exactly when a call for one of the files a piece meets fails, and then nothing is written any more; otherwise every byte that was taken is at its place. A new run on a disk that takes everything completes the files, wherever the first one failed.", "quantifier": "all torrents, interleavings, peers, answers of the operating system to each call for each file of each write; any disk on which the files could be written; both builds; second runs from any state of a first", "why_tests_cant": "the refusals of an operating system at every call in every interleaving cannot be produced in a test; that nobody ever notices is about all that could happen later", "anchors": ["src/torrent/writer.rs: write, FileWriter::write_to_filesystem", "src/actors/writer.rs: Handler<PieceReady>", "src/actors/torrent.rs: Handler<PieceDownloadSuccessfull>"]}
{"id": "C88", "title": "How fast a torrent can be from peers at a distance", "statement": "If every download of a torrent is from a peer at a distance of at least some round trip, whichever peers these are and however many, then the pieces come five at a time at best: from the time it has nothing, every five whole pieces take at least a tenth of a second, a round trip, and one more round trip for every block of 16 KiB of a piece. So the torrent never gets more than 80 KiB in a round trip, whatever the bandwidth, and is not complete before the time that follows from its length. Nor does it take much longer: if the peers have everything and answer, their sessions last no longer than those with peers at most so far away and so slow, and the client attends to things promptly, then every round of five pieces takes one such session and the delays of the client, and the files are complete after that.", "quantifier": "all torrents, executions of the whole process, clocks, sets of peers at the distance that keep the torrent with any delays, round trips, times from one at which the torrent has no piece and no download running; both builds", "why_tests_cant": "a bound on the speed for every number of peers and every network cannot be measured; a test meets a handful of peers on one machine, where the round trip is nothing and the limit is not seen", "anchors": ["src/actors/torrent.rs: TorrentActor::new, Handler<PieceDownloadSuccessfull>", "src/actors/connection.rs: Handler<PieceRequested>", "src/peer/manager.rs: download", "src/peer/download/mod.rs: execute", "src/peer/stream.rs: has_messages, peek_and_read"]}
{"id": "C89", "title": "An error of the disk stays with the torrent that meets it", "statement": "However often and in whatever way the operating system refuses writes of some torrents, the others do not suffer: each torrent goes on downloading as it could alone on a disk that takes everything, and requests and trackers are dealt with exactly as if nothing had been refused; unless a peer has sent wrong data with the right hash, every torrent learns the same description, gets the same pieces from the same peers and sends the same messages as in the same execution without refusals, and the saved descriptions are the same; and unless a peer has sent wrong data with the right hash, the files of every torrent keep what was right in them, each of their bytes is the right one, the one from before, or a zero where nothing was, nothing else on the disk changes but the saved descriptions, and a torrent none of whose own writes was refused or cut short keeps its writer, has every piece that was written in place and is complete when all are. This is for torrents that share no files, or are the same torrent asked for twice.", "quantifier": "all programs of any number of torrents, requests, peers, trackers, interleavings, and answers of the operating system to each call for each file of each write; any disk on which the files could be written; both builds", "why_tests_cant": "that a failure does not spread is about all interleavings of all torrents with all refusals; a test sees one torrent fail in one way at one moment", "anchors": ["src/torrent/writer.rs: write, FileWriter::write_to_filesystem", "src/actors/writer.rs: Handler<PieceReady>", "src/actors/torrent.rs: TorrentActor::new, Handler<PieceDownloadSuccessfull>", "src/main.rs: add_magnet"]}
