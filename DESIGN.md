# Formal model of rrr: design

The model is written in Rocq (Coq 8.16.1), under `rocq/theories`.  Every
subsystem has up to four files:

* `XModel.v`  – definitions that follow the C code function by function.  Every
  definition cites the file and lines it models, and says what it simplifies.
* `XSpec.v`   – small independent specification (what the English says), written
  without the model's helpers.
* `XProofs.v` – lemmas.
* `XProps.v`  – the property theorems, an `Example` next to each theorem
  showing a non-trivial case that meets its hypotheses, and `Print Assumptions`.

Conventions

* Bytes and machine integers are `Z`; wrap-around is written out
  (`x mod 2^32`).  Undefined behaviour (out of bounds access, use after free,
  division by zero) and `RRR_BUG` (abort) are explicit outcomes of the model.
* Loops over buffers are structural recursion over the remaining bytes or
  fuelled recursion with an explicit out-of-fuel outcome that a theorem excludes.
* Memory allocation is assumed to succeed unless a property is about failure.
* Logging is not modelled.
* A claim which is false in the code is stated as it should be, its negation is
  proved for a concrete reachable case (suffix `_refuted`), and what does hold
  is proved under the narrowest condition found (suffix `_partial` where the
  statement is weaker than the property).

Tests of the theorems against wrong programs are logged in `seeded/LOG.jsonl`:
each line is one edit of a definition of the model, with the proofs that failed.

## Properties, models and methods

The statement of each property is in `properties.jsonl`, the theorems in `MANIFEST.json`.

| id | title | modelled, and how it is proved | status |
|---|---|---|---|
| C01 | Base64 round trip | `util/base64.c` encoder and decoder loops over byte lists; induction over 3-byte groups and 18-group lines, finite check of the alphabet | proved |
| C02 | Base64 encoder never overruns its buffer | same model with the allocation size; arithmetic on the written length | proved |
| C03 | Base64url round trip | same model with the url alphabet; exact failure set | partial |
| C04 | Base64 decoder only returns decodings of its input and stays in its buffer | decoder against an independent RFC 4648 decoder; induction over groups of four | proved |
| C05 | HDLC frame round trip | `hdlc/hdlc.c` parser state machine (one step per byte) and exporter; induction over the payload, inductive grammar of stuffed frames | proved |
| C06 | HDLC parsing is independent of how the stream is cut | same; cutting follows from a fold law, invariant on the write position | proved |
| C07 | CRC-32 is the standard polynomial CRC and detects every short burst error | `util/crc32.c` table and loop; all 256 entries computed against the bitwise definition, GF(2) linearity, invertibility of the zero-byte step | proved |
| C08 | Hex encoding is exact and injective | `util/hex.c` with a memory of stated size; induction | proved |
| C09 | UTF-8 validation accepts exactly decodable strings | `util/utf8.c`; step function against an inductive grammar of well-formed UTF-8 | proved |
| C10 | Message frame round trip | `messages/msg.c`, `msg_checksum.c`, `msg_msg.c` on byte lists; inversion of encoder and decoder | proved |
| C11 | Corrupted messages are rejected | same, with the burst detection of C07 | proved |
| C12 | An accepted message has its topic and data inside the received bytes | same, with the memory after the message as an arbitrary list | partial |
| C13 | Topic and data updates keep the message consistent | `msg_msg.c` constructors, topic and data setters; computation on structures | proved |
| C14 | Array serialisation round trip | `array.c` packing and unpacking, `type.c` pack/unpack; induction over values | partial |
| C15 | Reading an array message never reads outside the message and terminates | `array.c` iteration over arbitrary message contents; bounds invariant | partial |
| C16 | Indexed numeric access returns the indexed element | `array.c` number access with index | partial |
| C17 | Incrementer ids stay in range and cooperating instances never collide | `util/increment.c` with 32/64 bit wrap; arithmetic | proved |
| C18 | Incrementer prefix is recoverable | same, prefix bits | proved |
| C19 | MQTT packet identifiers in use are never handed out twice | `mqtt/mqtt_id_pool.c` bit map; refinement to a set of used ids over all histories | proved |
| C20 | MQTT packet identifiers are only exhausted when all are in use | same | proved |
| C21 | MQTT topic matching follows the filter grammar | `mqtt/mqtt_topic.c` tokeniser and both matchers against a declarative matching relation | partial |
| C22 | MQTT topic and filter validation accepts exactly the legal strings | `mqtt_topic.c` validators | partial |
| C23 | ACL never grants more than its entries | `mqtt_acl.c` matcher over ACL lists | partial |
| C24 | FIFO buffer delivers every entry exactly once in order | `fifo.c` as a heap of linked entries; refinement to lists over all histories and callbacks | proved |
| C25 | FIFO ordered writes keep the buffer sorted | same; sortedness invariant | proved |
| C26 | FIFO search-and-replace neither loses entries nor leaves dangling pointers | same; search-and-replace | partial |
| C27 | Fixed point conversion is exact | `fixed_point.c`; exact rational and dyadic arithmetic with an explicit 64 bit significand | partial |
| C28 | Quoted string values survive export and import | `type.c` string import and export; induction | proved |
| C29 | Stream reassembly is independent of packetisation | `read.c` sessions; invariant relating buffer, overshoot and received stream, over all histories of reads of all senders | partial |
| C30 | Read buffers never overflow | same, with allocated sizes | proved |
| C31 | Message slot delivers every message to every reader exactly once | `message_holder_slot.c` as a state machine with one step per critical section; invariants over all histories | proved |
| C32 | A message handed to a slot is never used after being freed | same plus reference counts and locks of holders as a transition system; all interleavings of any number of threads | partial |
| C33 | Shared memory allocator never hands out overlapping memory | `rrr_mmap.c` heap of blocks and its index; invariant over all histories | partial |
| C34 | Shared memory channel is a reliable FIFO between two processes | `mmap_channel.c` transition system, one writer and one reader; all interleavings | partial |
| C35 | Text parser helpers stay inside their buffer | `parse.c` over a text in memory; induction, all sequences of operations | partial |
| C36 | Receiving a message never crashes the process or leaves the received memory | the receive path of `msg.c` with all message types; case analysis over all octet strings | partial |
| C37 | Log messages arrive as sent | `msg_log.c`; inversion of encoder and decoder | partial |
| C38 | Statistics messages arrive as sent | `stats_message.c`; same | proved |
| C39 | Tag/value map returns what was stored | `map.c` as a list of pairs | proved |
| C40 | Incrementer gives every message of a topic the next id | the module `incrementer` over a model of the message database; invariant over all histories of messages, acknowledgements and restarts | partial |
| C41 | Integers in imported data keep their value | `type.c` integer import; induction over elements | partial |
| C42 | Decimal numbers in imported text keep their value | `type.c` decimal import; against an inductive grammar | partial |
| C43 | Octet, separator and text fields accept exactly what they are defined to accept | `type.c` blob, separator and stx import | proved |
| C44 | An import result does not change when more data arrives | `type.c` import of every type; decidedness under extension of the input | partial |
| C45 | Importing a field never crashes, stays in the buffer and makes progress | same; bounds | partial |
| C46 | Messages embedded in data are imported unchanged | `type.c` msg import | partial |
| C47 | Packing a value for the network and unpacking it gives the value back | `type.c` pack and unpack | proved |
| C48 | Numeric values convert to their decimal text | `type.c`, `type_conversion.c` number and text conversions | partial |
| C49 | Numbers stored in an array are read back | `array.c` push and get | proved |
| C50 | Tag lookup finds the first value with the tag | `array.c` tag lookup in arrays and messages | partial |
| C51 | Splitting a value gives its elements | `array.c` split of values with several elements | partial |
| C52 | Array editing keeps the other values | `array.c` clear, replace and rotate by tag | proved |
| C53 | Exporting selected values | `array.c` selected tag export | partial |
| C54 | Settings are a table | `settings.c` as a list of named values; refinement to a partial map over all histories | partial |
| C55 | Comma separated settings | `settings.c` comma separated lists; induction | proved |
| C56 | Configuration files say what is written in them | `configuration.c` over the parser of C35; layout relation, structural induction over the file | partial |
| C57 | Environment files say what is written in them | `environment_file.c` over the parser of C35; line by line against an independent specification | partial |
| C58 | Conditions mean what they say in C | `condition.c` as parser and stack machine; syntax trees printed and parsed back, structural induction | partial |
| C59 | Condition texts cannot break the parser | `condition.c` parser over the text of C35; step bounds, invariants of the stacks | partial |
| C60 | Route and method definitions do what is written | `discern_stack.c` parser and executor; grammar and meaning as separate relations, induction over the instructions | proved |
| C61 | Route and method definitions cannot break the program | the same model; position and stack invariants, simulation by kinds of values | proved |
| C62 | Messages go to the receivers chosen | `instances.c` postprocessing with `discern_stack_helper.c`; execution refined by the list of decisions | partial |
| C63 | Websocket messages arrive as sent | `websocket.c` receive and send, frames as relation of RFC 6455; through the read sessions of C29, induction over the messages | partial |
| C64 | Websocket frames cannot break the receiver | the same model with memory and abort outcomes; all headers by cases | partial |
| C65 | Silent websocket connections are noticed | timeout and ping functions with 32 bit products; arithmetic | partial |
| C66 | Messages of a UDP-stream arrive as queued, in order and once | two ends with send and receive buffers, and a network which may deliver any packet ever sent; invariant of both directions (counters, ordered buffers, frames known to the queue, acknowledgements covered), all steps, induction over runs | proved |
| C67 | What a UDP-stream has accepted for sending is not lost while the stream lives | the same invariant gives retention; delivery of a complete buffer by induction over its messages; a second invariant for the state after a lost datagram | partial |
| C68 | No datagram harms a UDP-stream end | the datagram format with its checksums, round trip and damage; an invariant of one end whose peer sends any packets; a run of 2^22 frames by induction | partial |
| C69 | Assured single delivery: every accepted message is delivered once | clients and a receiver with their queues, one ordered channel for each client (what C66 proves about UDP-streams) and control frames which arrive in any order and number; invariant of each client (ids, flags, what is known where), and for one client the bound that a delivered message is remembered until its last copy has arrived, by counting what may still be delivered before; induction over histories | partial |
| C70 | Assured single delivery: the receiver goes on receiving | the same model; remembered messages are among the last deliveries; a history of 4500 messages by induction | partial |
| C71 | URL encoding stands for the octets given | encoder and decoder as functions on octets, the meaning of encoded text as a relation; induction over texts | partial |
| C72 | Form fields arrive as they were sent | the parser as a loop over octets with its buffer, the meaning of form text as a relation; induction over fields and their texts | partial |
| C73 | Quoted header values stand for the value | quoting and unquoting as functions, tokens and quoted strings of RFC 7230 as a relation; induction over values | partial |
| C74 | URIs are taken apart at the right places | the parser with the searches it makes, the octet behind the text being a parameter; induction over hosts, digits and texts without separators | partial |
| C75 | HTTP messages with a known length are taken precisely | the parser with its state between arrivals, as a function of all octets received; header, fields and messages of RFC 7230 as a separate grammar; invariant over arrivals, induction over fields | partial |
| C76 | Bodies made of chunks are put together | the same model with addresses of buffers; chunks as a grammar; induction over chunks; the endless loop as a cycle of two states for every number of rounds | partial |
| C77 | The end of an HTTP message is where the standard says | the same model; refutations by general lemmas or by a message of a few octets | partial |
| C78 | MQTT packets which are written are read as they were | the parser with its resumption (parse session, positions, target size), the assembler and the reading of a connection; the wire format as a separate specification; a combinator `reads` for fields, stability of parsers under more octets, induction over packets and arrivals | partial |
| C79 | An MQTT connection survives every input | the same model; invariant of the parse session over arbitrary octets; induction over arrivals | partial |
| C80 | Subscriptions follow the requests | sessions of the broker as records, subscription lists with the unique insertion and removal; events for packets, disconnections and the timer; invariant over histories relating each list to the requests answered | partial |
| C81 | A published message goes to exactly those who subscribed | the same model; one step after an arbitrary history, `copies` as specification | partial |
| C82 | New subscribers get the last retained messages | the same model; the retain buffer related to the messages published so far; one step after an arbitrary history | partial |
| C83 | Sessions outlive connections and wills are published | the same model; invariant of a session whose client is away, over arbitrary events of others; wills by induction over the maintenance loop | partial |
| C84 | Incoming messages of QoS 1 and QoS 2 are delivered and answered as the handshakes say | session_ram.c acknowledgements and the handlers of mqtt_common.c as a transition system with abort; refinement of a small table of identifiers | partial |
| C85 | Outgoing messages are kept until acknowledged, with identifiers of their own | the same model; invariant that identifiers in the queue are distinct and taken from the pool; step theorems for entries which wait | partial |
| C86 | Between two sessions QoS 2 delivers exactly once and QoS 1 at least once | two copies of the model with the packets on their way and arbitrary losses; one inductive invariant per identifier | partial |
| C87 | A send loop neither loses nor doubles messages | `send_loop.c` with the selection sort and the module's messages being sent as a state machine; permutation of the messages over all histories | proved |
| C88 | Messages in a send loop expire and time out when they are due | the same model with 64 bit time arithmetic and byte order; invariant of the entries over all histories | partial |
| C89 | A send loop which preserves order hands over messages in the order they came | the same model; the sort, and the messages handed over as a subsequence of those which came | partial |
| C90 | Data is read as an array definition says | `array_tree.c` import as a function from data to values; a separate relation `follows` on the definition; equivalence by induction on the definition | partial |
| C91 | No data can make an array definition fail otherwise than with an error | the same model with explicit undefined behaviour and aborts; invariant of the values read so far | partial |
| C92 | More data does not change what has been read by an array definition | the same model; induction on the definition with the data extended | partial |
| C93 | Any text is a valid array definition or is refused | the definition parser as a function over texts, any text; induction with a position invariant | proved |
| C94 | Array definitions written as the manual says are understood | the same model; a grammar of layouts from the manual; induction on the derivation | partial |
| C95 | The message database answers as a map from topics to messages | file system with directories and system calls, server functions in a monad with a kill counter; invariant: files represent the map; induction over requests and runs | proved |
| C96 | A killed message database server damages at most the topic of the request it works on | the same model; weakest preconditions with a crash condition for every system call | proved |
| C97 | TIDY removes and IDX sends the messages older than requested, each once | the same model; invariant of the directories already treated; only for iterations in one slice | partial |
| C98 | Every reader gets every message of a sender once and in order | transition system of writers, split buffers with owners, locks, readers with what they hold; invariant per writer: what a reader has got, holds and has in its buffer is what was distributed; induction over schedules | proved |
| C99 | No message is left lying without its reader being told | the same system with counters of events; conservation of events, absence of deadlock from the lock invariant, progress by running one instance alone | proved |
| C100 | With backstop set, an instance is not given its own messages | the same system with the source and, as history, the origin of messages; invariant that they agree | partial |
| C101 | SHA-256 digests are those of the standard | FIPS 180-4 as specification with constants computed from roots of primes; model of the streaming functions with a chunk buffer; the two rolling message schedules proved equal, induction over the octets | proved |
| C102 | SHA-1 digests are those of the standard, or a failure is told | the same for SHA-1 with the context record of the code; induction over calls, invariant relating the context to all data so far | proved |
| C103 | WebSocket handshakes give and take exactly the accept value of RFC 6455 | the handshake as functions of the key on top of the SHA-1 and Base64 models; RFC 6455 as specification | proved |
| C104 | Authentication lets in exactly those the password file says | line format as specification; model of the reader of lines with its callbacks, reduced to a fold over lines; induction over the lines | proved |
| C105 | Hashes of passwords are taken for exactly the passwords with the same key | model of making and checking hashes on top of the Base64 model, key derivation a parameter; direct proof by the round trip of Base64 | partial |
| C106 | The password program keeps a map from users to accounts | accounts as a finite map in the specification, requests as functions on it; refinement by rewriting of lines, induction over commands | proved |
| C107 | Accounts survive when the password program is stopped | the program as a trace of file states after each system call; case analysis | proved |
| C108 | An access list file means what it states | model of the reader of access lists on top of the text parser; lines, statements, blocks and rules in the specification; invariants of the position, then equivalence of the evaluation of lines with the stated rules | proved |
| C109 | Modbus requests are sent once, in order and as the protocol says | model of the client and of its 32 places for requests; history of requests in the specification (asked, sent, done with); refinement with an invariant of places and numbers modulo 65536, induction over operations | proved |
| C110 | Modbus answers reach the request they belong to, at most once | same model; an answer determines its request as numbers of outstanding requests differ; induction over operations | proved |
| C111 | Data queued for a socket is sent whole, in order and once | model of the queue and of the loop around the call to the system, whose answers are parameters; invariant relating each chunk to the octets written from it, then the stream; induction over operations | proved |
| C112 | Data queued for a network connection is sent whole, in order and once | same model with the transport as a parameter; same invariants; refutations by runs | partial |
| C113 | Conversions of values do what is documented | model of each conversion function on the values of TypeModel; a specification of decimal and hexadecimal texts which does not compute them; induction over the elements | partial |
| C114 | A recipe of conversions applies each conversion which is possible | model of the loop over conversions; specification as a fold; induction over the recipe, with a bound on the growth for memory | partial |
| C115 | Averages tell about exactly the measurements of the timespan | model of the list of measurements and of the calculation, on the array messages of ArrayModel; specification of averages and extremes which does not compute them; induction over operations and over measurements | partial |
| C116 | The viewer of statistics has the last message of each path until it is old | model of the tree with its recursive functions; refinement of a flat table from lists of levels, by induction over levels and operations, from which what stays and what goes follows | partial |
| C117 | Arguments of programs are read as they were written | model of the loop over arguments; specification as a grammar of ways to write arguments; equivalence by induction over arguments and over the grammar | partial |
| C118 | Each value of a message becomes a message of its own | model of the callback on the array messages of ArrayModel; specification of time and topic; induction over values with the round trip of arrays | partial |

## What is missing from the partial properties

* **C03** (Base64url round trip): The claim is false in the code: the decoder rejects every encoding whose source length is not a multiple of three. Proved: exact failure set and round trip for the rest.
* **C12** (An accepted message has its topic and data inside the received bytes): The claim is false in the code: the topic length is not compared with the message size. Proved: what acceptance does guarantee, and the concrete accepted message.
* **C14** (Array serialisation round trip): Exact for every array that fits a message; refuted for a single value whose tag and data together reach 2^32 octets, which overflows the message instead of being refused.
* **C15** (Reading an array message never reads outside the message and terminates): Proved for every message content whose topic fits the message.  Refuted for messages with a larger topic length (which the receiver accepts), and reading an embedded message with a size below 18 aborts.
* **C16** (Indexed numeric access returns the indexed element): False in the code for every index but 0 (wrong stride).
* **C21** (MQTT topic matching follows the filter grammar): The token matcher follows the level rules exactly, for all filters and topics. The linear matcher agrees unless '$' (or unreadable memory) follows the topic; two deviations from the OASIS rules are refuted.
* **C22** (MQTT topic and filter validation accepts exactly the legal strings): Exact characterisation proved; the 'non-empty' clause is refuted for filters: the empty filter is accepted.
* **C23** (ACL never grants more than its entries): Publish decisions proved in full. Subscriptions: sound when each '+' lies opposite a wildcard; refuted otherwise.
* **C26** (FIFO search-and-replace neither loses entries nor leaves dangling pointers): The claim is false in the code: removing an entry after replacing one (with none kept in between) uses a stale predecessor, which loses the replaced entry or leaves a dangling pointer.  Proved exact for all other answer sequences.
* **C27** (Fixed point conversion is exact): Round trips are proved for all values where they hold (long double: all but INT64_MIN; hexadecimal text: values that are not negative) and refuted elsewhere.  Decimal texts are within one unit, and a decimal text of an exactly representable number may be one unit too small.
* **C29** (Stream reassembly is independent of packetisation): Proved for all histories since the session of the sender was last removed, with the reasons for removal listed exactly.  Findings: a pause of 30 seconds within a message loses octets and misframes the rest; with a size limit the result depends on the chunks; a message until close is cut short by an empty read; a header with size 0 aborts the process.
* **C32** (A message handed to a slot is never used after being freed): Proved for every schedule in which slot_write_incref is called with the holder locked (all callers in the code do) and collections have at most one holder.  Findings: without the lock, and with collections of two or more, a freed holder is accessed.
* **C33** (Shared memory allocator never hands out overlapping memory): Proved for every history with sizes below 2^64 - 8 on one heap: containment, size, disjointness, intact contents, exact emptiness and detection of bad frees.  Missing: the collection of heaps above it.  Findings: sizes within 8 of 2^64 wrap; a fresh heap refuses 8 of every 4096 sizes it was made for; a heap can refuse everything for ever though all is freed.
* **C34** (Shared memory channel is a reliable FIFO between two processes): Proved for every interleaving of one writer and one reader with messages of at least one octet. Refuted for empty messages: the reader is stuck until the ring wraps and then gets the newest message. Freeing the blocks keeps the entry count.
* **C35** (Text parser helpers stay inside their buffer): Proved for every text followed by a zero octet and every sequence of operations. False without the zero octet (environment files: one octet read after the buffer) and for empty names with subscript syntax (the program aborts); both are theorems.
* **C36** (Receiving a message never crashes the process or leaves the received memory): The claim is false in the code in three ways (stated size below the header size aborts; short log message; statistics message with an overlong member); proved safe for everything else.
* **C37** (Log messages arrive as sent): Holds for non-empty texts below 65536 and prefixes below 65535 octets; the rest is always refused by the receiver.
* **C40** (Incrementer gives every message of a topic the next id): Proved for histories without restart, and with restarts when no acknowledgement is lost and min is positive; the case min = 0 is refuted. With a lost acknowledgement followed by a restart one id is skipped.
* **C41** (Integers in imported data keep their value): Exact for all arrays whose stored size is below 2^32; larger counts wrap and leave the buffer (refuted).
* **C42** (Decimal numbers in imported text keep their value): If-and-only-if proved with clamping; the claim that the number is kept is false beyond 64 bits, where the nearest limit is stored without error.
* **C44** (An import result does not change when more data arrives): Proved for all types but msg and fixp, where it is false.
* **C45** (Importing a field never crashes, stays in the buffer and makes progress): Proved for definitions whose sizes do not wrap 32 bits, all types but msg, and fixp without the memory clause; refuted for the rest.
* **C46** (Messages embedded in data are imported unchanged): Proved for one message; refuted for several of different size.
* **C48** (Numeric values convert to their decimal text): Exact for non-empty values below 2^30 octets; refuted for empty and larger ones.
* **C50** (Tag lookup finds the first value with the tag): Exact for arrays and messages made from arrays; an unreadable message is reported to have every tag.
* **C51** (Splitting a value gives its elements): Exact for element counts from 1; a received element count of 0 divides by zero.
* **C53** (Exporting selected values): Exact for all exportable values; a fixed point value aborts.
* **C54** (Settings are a table): Proved for every history with names below 244 characters and values without zero octets which are not empty.  Findings: empty values abort the program when read, a refused long name leaves an unnamed setting, numbers stored as numbers cannot be read, large numbers saturate, only the first character of yes/no counts, and long values cannot be passed between processes.
* **C56** (Configuration files say what is written in them): Round trip and bounds proved for all layouts, contents and texts; array, route and method definitions are parsed by code not modelled, which is a parameter.  Findings: a missing name between brackets aborts the program, a file ending in an opening bracket is accepted, a last block without settings and line end is refused.
* **C57** (Environment files say what is written in them): Exact for every file without zero octets whose last line is not an unended comment; for those memory after the buffer is read (a theorem).
* **C58** (Conditions mean what they say in C): Exact where operators of the same level do not follow each other without parentheses and no subtraction follows a closing parenthesis; for the others the value computed is given too (grouping to the right).  Findings: 10 - 3 - 2 is 9, a lone literal is false, reverse polish notation differs, AND and OR evaluate both sides, numbers of 2^64 and more saturate.
* **C59** (Condition texts cannot break the parser): No text reads outside, loops or aborts when parsed, and literals are well-formed.  Findings: operators without values are accepted and abort the program when evaluated, shifts by 64 and signed overflow are undefined.
* **C62** (Messages go to the receivers chosen): Exact for messages whose topic is followed by an octet other than $ and whose tags have no NUL characters; both exceptions are shown to be real.
* **C63** (Websocket messages arrive as sent): Exact for control frames between messages and fragments below 4 GB.  Findings: a ping between fragments makes the message vanish, pongs do not carry the data of the ping, a stray continuation is delivered as a message.
* **C64** (Websocket frames cannot break the receiver): All frames with a length below 2^63 are safe.  Findings: ten octets abort the program, fourteen make it change memory after the buffer, reserved bits and unmasked frames from clients are accepted.
* **C65** (Silent websocket connections are noticed): Exact for limits below 4295 seconds; larger ones wrap (a theorem).
* **C67** (What a UDP-stream has accepted for sending is not lost while the stream lives): Nothing is let go of too early, and what is acknowledged is delivered.  Findings: a lost last datagram is never sent again, reordering of the first datagrams destroys the stream, empty messages are accepted but not sent, a full buffer stops sending for good.
* **C68** (No datagram harms a UDP-stream end): Safe below 4 GB of data.  Findings: 4 GB of frames without an end overflow the size and memory, resets make the program read freed memory.
* **C69** (Assured single delivery: every accepted message is delivered once): Exactly once for one client without crashes, no loss for any number of clients, when the periodic event comes at least every thousand deliveries.  Findings: with several clients messages may be delivered twice; restarts of either end may lose messages which were acknowledged.
* **C70** (Assured single delivery: the receiver goes on receiving): Holds with one client.  Finding: with several clients the receiver stops receiving for good.
* **C71** (URL encoding stands for the octets given): Findings: an escape with one digit is accepted and swallows a character; a third of 4 GB aborts.
* **C72** (Form fields arrive as they were sent): Findings: values starting with a zero octet are lost, a space ends the text and stays in the value, an equals sign in a value is refused.
* **C73** (Quoted header values stand for the value): Findings: some characters are not quoted, backslashes double, 2 GB overflow memory.
* **C74** (URIs are taken apart at the right places): Findings: wss is taken for ws without encryption; the octet behind the text is read; paths ending with a colon, paths with :// and queries directly behind the host are refused; an empty prefix reads before the allocation.
* **C75** (HTTP messages with a known length are taken precisely): For header fields with plain values (no lists or parameters), headers up to 64 kB and bodies below 2^63 octets.  Missing: fields with lists and parameters, multipart bodies, the HTTP/2 upgrade and sending.
* **C76** (Bodies made of chunks are put together): Responses are proved.  Findings: the body of every request with chunks is read beyond its end; a response of 107 octets makes the client loop for ever; chunk extensions are refused.  Missing: trailers.
* **C77** (The end of an HTTP message is where the standard says): Refuted: bodies read until close are lost; responses 1xx and 304 never end; unclear lengths are accepted; lengths near 2^64 wrap; a Link field aborts the program; empty values are refused.
* **C78** (MQTT packets which are written are read as they were): Proved for every sequence of packets in the wire format of the standard, except what the findings show: properties of binary data, empty or non-UTF-8 passwords, empty user names and No Local/Retain As Published are not read; empty properties and wills are read but cannot be sent.  Not modelled: AUTH, topic aliases.
* **C79** (An MQTT connection survives every input): For every input the packets follow the lengths in the octets and nothing aborts except a SUBSCRIBE of version 5; every packet handed on has type, flags, identifier, topics, filters and codes as the standard allows, but for one code of PUBACK and PUBREC.  Findings: that one does (a client can abort the broker), the outcome may depend on the splitting, and properties may overrun their length.
* **C80** (Subscriptions follow the requests): Proved while no more than 65536 filters have been asked for.  Finding: a session which is full grants further subscriptions without keeping them.
* **C81** (A published message goes to exactly those who subscribed): Proved while no more than 65536 filters have been asked for.  Matching is by the rules of TopicSpec.v (differences from the standard there).  The sending of the queues is not part of this model.
* **C82** (New subscribers get the last retained messages): Findings: retain handling is ignored, subscribing again sends nothing, the maximum packet size is ignored for retained messages.
* **C83** (Sessions outlive connections and wills are published): Findings: sessions which never expire are deleted after 20 seconds, resumed sessions may be deleted at once, a clean start keeps messages, long will delays wrap, wills are lost when a session is taken over.
* **C84** (Incoming messages of QoS 1 and QoS 2 are delivered and answered as the handshakes say): Proved for remotes which use an identifier again only after this side has tidied its queues.  Findings: SUBACK or UNSUBACK with the identifier of a message aborts the program; a repeated PUBLISH of QoS 1 closes the connection and leaves a message which is delivered again; an identifier used again at once closes the connection.
* **C85** (Outgoing messages are kept until acknowledged, with identifiers of their own): Findings: with a Receive Maximum of 1 nothing of QoS 1 or QoS 2 is ever sent; expired messages stay for ever.
* **C86** (Between two sessions QoS 2 delivers exactly once and QoS 1 at least once): Proved for histories in which an identifier is given to a new message only when nothing is left of the one which had it before.
* **C88** (Messages in a send loop expire and time out when they are due): Proved for modules which leave the messages as they are and for timeouts shorter than the time since 1970.  Findings: messages sent by the module ip in network order do not expire, or expire at once; long timeouts are reached at once; long times to live wrap.
* **C89** (A send loop which preserves order hands over messages in the order they came): The order over whole histories is proved while nothing handed over comes back.
* **C90** (Data is read as an array definition says): Proved for definitions in `plain` (ArrayTreeSpec.v), which excludes the cases of the findings.  Findings: a name also finds values of which the tag is only its beginning, REWIND over numbers written as text goes back too little, REWIND past the beginning is not refused when the definition is read.
* **C91** (No data can make an array definition fail otherwise than with an error): Proved for definitions in `plain`.  Findings: counts taken from the data make memory which is too small, or abort the program.
* **C92** (More data does not change what has been read by an array definition): Proved for definitions in `plain`.
* **C94** (Array definitions written as the manual says are understood): Proved for values of 3 to 65 characters and conditions with operators of the same level grouped by parentheses.  Findings: values of two characters are refused, sizes with a sign are accepted and wrap around.
* **C97** (TIDY removes and IDX sends the messages older than requested, each once): Proved for iterations which end within one time slice.  Findings: when the time is not enough for a directory it is started over, so messages are sent more than once, and the iteration may never end.
* **C100** (With backstop set, an instance is not given its own messages): Proved for networks without duplicate.  Finding: clones do not have the source of the message, so that with duplicate own messages come back.
* **C105** (Hashes of passwords are taken for exactly the passwords with the same key): Proved with the TLS library (the key derivation is a parameter); without it that passwords of up to 54 octets are accepted.  Findings: without it longer passwords abort the program, passwords which go on after the right one are accepted, and shorter ones make it read out of bounds; hashes with a short salt or key in the file abort or read out of bounds.
* **C112** (Data queued for a network connection is sent whole, in order and once): No octet is lost or repeated (chunk_octets).  The order is proved for data which is not urgent when the transport takes no more at a time after it has taken a part.  Findings: without these, data is put in the middle of other data; and an error for urgent data is forgotten when other data waits.
* **C113** (Conversions of values do what is documented): All but conversion of strings to hexadecimal text and of data of 2 GB.  Findings: strings are not converted to hexadecimal text although documented for tolerant settings; blobs of 2 GB overflow the memory for the hexadecimal text.
* **C114** (A recipe of conversions applies each conversion which is possible): Proved when the last conversion is possible for what the others have made.  Findings: otherwise all of the recipe is undone; and the number of elements in an array message is not checked against its data, so that conversions read outside memory or abort.  recipe_safe is for values with elements of equal size and within a bound on the size of the result.
* **C115** (Averages tell about exactly the measurements of the timespan): Proved for the measurements since the last interval which are within the timespan, when their sum is below 2^64 and messages can be read.  Findings: measurements are in one average only, so that a timespan longer than the interval has no effect; sums wrap; arrays without times are dropped; negative numbers are taken for big ones; one broken array message ends the module or makes it read outside memory.
* **C116** (The viewer of statistics has the last message of each path until it is old): Proved with a single time for all levels of a message. False, and refuted: a message refused for a slash at the end changes nothing; a path of one character is taken.
* **C117** (Arguments of programs are read as they were written): Proved: what is written as it should be is read as written, and what is taken is in a grammar with three more forms, which are findings. False, and refuted: a rule for words given by its name takes the next argument; a value for letters which take none is refused; empty values at the end are kept; unused arguments are told.
* **C118** (Each value of a message becomes a message of its own): Proved for messages which can be read and values for which the topic fits. False, and refuted: a damaged message, or a topic which becomes too long, does not end the module.

## Findings

Claims which are false in the code, each shown by a theorem about the model.

* `acl_file_trailing_blank_refuted` (C108): FINDING: blanks after a topic belong to its name, although they are ignored after every other statement. A rule meant to deny a topic then applies to another one and the topic stays open to everybody.
* `acl_file_zero_refuted` (C108): FINDING: a zero octet in a topic ends its name without an error.
* `array_def_short_refuted` (C94): FINDING: a value of two characters is legal but refused: "h4;" is, "h4#x;" is not.
* `array_def_sign_refuted` (C94): FINDING: sizes may have a sign before them, and a negative size wraps around: the size of -18446744073709551615 is accepted and is 1.
* `array_pack_overflow_refuted` (C14): C14. Without that limit on single values it fails: the length of tag and data is added in 32 bit, the message is allocated too small and written past its end.
* `array_read_returns_refuted` (C15): With them the process can be made to abort: an embedded header stating a size below eighteen.
* `array_iterate_long_topic_refuted` (C15): C15. A message whose topic length is larger than the message is accepted by the receiver (C12) and iterated outside its memory.
* `array_number_index_refuted` (C16): C16 fails for other indexes: another element, or memory outside the value, is read.
* `array_message_has_tag_refuted` (C50): C50. On a message that is not readable the tag is reported as present.
* `array_split_zero_refuted` (C51): A message stating an element count of zero is read without complaint, and splitting the value then divides by zero.
* `array_export_fixp_refuted` (C53): A fixed point value makes the process abort.
* `array_tree_prefix_refuted` (C90): FINDING: a tag is found by a name it is only the beginning of, since the comparison is as long as the tag. With the tags "length" and "len", a blob of length {length} takes the number of "len", which is the wrong one.
* `array_tree_rewind_refuted` (C90): FINDING: REWIND does not go back over decimal numbers written as text and over frames, as the length of those is not known when it goes back: after REWIND2 over "25" and a comma, reading continues at the comma, not at the "2".
* `array_tree_rewind_checked_refuted` (C90): FINDING: the manual says that REWIND past the beginning of the array is refused before the program starts. The definition is accepted, and all data refused afterwards.
* `array_tree_count_refuted` (C91): FINDING: a count taken from the data is only checked to be below 2^32. With "be4#n,be8@{n};" the four octets 32, 0, 0, 0 make 2^29 elements of eight octets: the size of the memory for them wraps around to 0 and the elements are written behind it.
* `array_tree_abort_refuted` (C91): FINDING: with blobs of 1024 octets and a count of 2^22, the multiplication of the two aborts the program: four octets of data are enough.
* `asd_two_clients_refuted` (C69): FINDING: the number of messages after which a delivered message is forgotten counts those of all clients, and only forgets those of the first client seen (udpstream_asd.c:1044-1055). With two clients, the second copy of a message, sent as the first was not acknowledged in time, may arrive after 1500 messages of the other client: it is delivered again.
* `asd_client_restart_refuted` (C69): FINDING: when a client starts, it sends one control frame which makes the receiver forget the ids of the former run; it is sent once and not acknowledged (udpstream_asd.c:440-458). If it is lost, new messages get the ids of old ones: they are acknowledged and never delivered.
* `asd_late_reset_refuted` (C69): FINDING: if that control frame arrives later than the first message, which was sent after it over the UDP-stream, the receiver drops the message, which it has acknowledged; asked to release a message it does not have, it confirms that (udpstream_asd.c:596-606), and the message is lost.
* `asd_receiver_restart_refuted` (C69): FINDING: likewise for a receiver which is restarted between its acknowledgement of a message and the release of the message.
* `asd_halted_refuted` (C70): FINDING: delivered messages of all clients but the first seen are kept for ever (udpstream_asd.c:1055 clears the count after the first queue). When there are 4500 of them, no message of any client is received any more, whatever happens, until one of the ends is restarted; a message of another client waits for ever.
* `avg_timespan_refuted` (C115): FINDING: with the default timespan and interval, measurements are documented to be averaged over 15 seconds; a measurement from 7 seconds ago is not in the average after it has been in one.
* `avg_sum_refuted` (C115): FINDING: a sum of measurements above 64 bits wraps: the average is below the minimum.
* `avg_times_refuted` (C115): FINDING: only the tag of the measurement is documented to be expected, and other messages to be passed on; an array without times is dropped, measurement or not.
* `avg_negative_refuted` (C115): FINDING: negative measurements are taken for big ones.
* `avg_broken_refuted` (C115): FINDING: one array message which cannot be read ends the module, and one with a number without octets is read outside its memory.
* `base64_roundtrip_empty_refuted` (C01): C01, finding: for the empty string the decoder reports failure.
* `base64url_roundtrip_refuted` (C03): C03, finding: Base64url does not round trip; the decoder rejects what the encoder produced for every length that is not a multiple of three.
* `broker_shared_memory_refuted` (C98): FINDING: of an instance with several readers and without duplicate, two readers can make use of memory which has been given free: if one of them has taken as many messages as are taken at a time, 500, and its amount ends at the last of them, it makes the message after them the first of the queue, though the other one has read it in the meantime.
* `broker_shared_lost_refuted` (C99): FINDING: of an instance with several readers and without duplicate, a reader can use its event for a message of which another reader was told, and leave a message from another sender, which only it can read, lying: it has no event any more, and whatever the readers do, it is not read until somebody writes again.
* `broker_backstop_duplicate_refuted` (C100): FINDING: with duplicate, messages come back: the clones put in the split buffers do not have the source of the message. Instance 0 gets from instance 1, which duplicates, the message which it has made itself, though backstop is set; this is the bus of the manual page.
* `modbus_short_error_refuted` (C110): FINDING: an error answer without an error code is accepted, and the code given to the user is what happened to be in memory.
* `modbus_leak_refuted` (C110): FINDING: when the answer to a request is for another function or too long, the request is forgotten and its pointer is never given back: nothing is left in the client which could do so when it is destroyed.
* `channel_empty_message_refuted` (C34): Finding: without the restriction to messages of at least one octet the claim is false. After an empty message the reader is refused until the ring has been written round, and is then given the newest message instead of the oldest.
* `channel_error_stores_refuted` (C34): Finding: a write which returns an error may have stored the message, so that a writer trying again sends it twice.
* `channel_free_blocks_refuted` (C34): Finding: freeing the blocks does not reset the number of entries. The channel then reports a message which is not there, for ever after.
* `chunk_callback_refuted` (C112): FINDING: when a part of some data has been sent on a network connection and there is room for more just after, the next data is sent before the rest of it.
* `chunk_urgent_refuted` (C112): FINDING: urgent data on a network connection (answers of MQTT) is sent in the middle of other data a part of which has been sent.
* `chunk_error_lost_refuted` (C112): FINDING: an error while urgent data is sent on a network connection is forgotten when there is other data.
* `cmd_commas_refuted` (C117): C117: FINDING: an empty value at the end of values between commas is lost, and an option with an empty value has no value at all.
* `cmd_own_name_refuted` (C117): C117: FINDING: a rule for any number of words, such as config of the program rrr, can be given by its name with two dashes, and then the option itself is taken to be the word: with --config a.conf the files are --config and a.conf.
* `cmd_letter_value_refuted` (C117): C117: FINDING: a value given to letters which take none is lost without an error, while it is an error for the same options by their names.
* `cmd_unused_refuted` (C117): C117: FINDING: the check that all arguments were used finds no error, whatever was not used.
* `cond_chain_refuted` (C58): FINDING: operators of the same level group to the right: 10 - 3 - 2 is 5 in C and 9 here.
* `cond_single_refuted` (C58): FINDING: a condition being a single literal or name is always false, whatever its value.
* `cond_subtract_refuted` (C58): FINDING: a subtraction behind a closing parenthesis is taken for the sign of a number, and the condition is refused; with an addition it is accepted.
* `cond_rpn_refuted` (C58): FINDING: the manual says that reverse polish notation gives the same result as the normal one. 1 2 + 3 == is 1 + 2 == 3, but is taken as 1 == 2 + 3.
* `cond_short_circuit_refuted` (C58): FINDING: the second operand of AND and OR is evaluated even if the first one decides, so that a test cannot protect a division as it can in C.
* `cond_large_refuted` (C58): FINDING: numbers of 2^64 and more are not refused but taken as 2^64 - 1.
* `cond_abort_refuted` (C59): FINDING: the check of the numbers of operators and values lets operators without values pass. Evaluating such a condition aborts the program, or takes a missing value as zero.
* `cond_undefined_refuted` (C59): FINDING: evaluating accepted conditions is not defined for some values: shifts by 64 or more, signed numbers running over.
* `config_missing_name_refuted` (C56): Where a name is missing the program is aborted instead of the file being refused.
* `config_truncated_refuted` (C56): A file which ends in an opening bracket and blanks is accepted.
* `config_unended_refuted` (C56): A last block without settings is refused when nothing, not even a line end, comes after it.
* `conv_hex_string_refuted` (C113): FINDING: with tolerant blobs, strings are documented to be converted to hexadecimal text by blob2hex; they are left as they are.
* `conv_hex_size_refuted` (C113): FINDING: with 2^31 octets or a little more blob2hex writes outside its memory.
* `recipe_last_refuted` (C114): FINDING: when the last conversion of a recipe is not possible for what the others have made, it is documented to be skipped; the value is left as it was before the recipe.
* `recipe_elements_refuted` (C114): FINDING: values of array messages may have any number of elements: for numbers h2str reads outside the data, and a string without elements makes str2h abort.
* `discern_method_keyword_refuted` (C60): FINDING: the definition of a method written in the manual with the keyword M is refused, as there is no such keyword.
* `route_topic_data_refuted` (C62): FINDING: if a message has a topic ending with / then the data behind the topic decides if a filter ending with + matches: data starting with $ prevents it. Without data, memory outside the message is read.
* `route_tag_nul_refuted` (C62): FINDING: a tag with a NUL character is found up to the NUL character the first time it is asked for, and not found when asked for again in the same definition.
* `env_comment_overread_refuted` (C57): Finding: when the file ends in a comment without line end, memory after the buffer is read.
* `exp_damaged_refuted` (C118): C118: FINDING: an array message which is damaged ends the module, as the error is not told from an error of the module itself.
* `exp_topic_refuted` (C118): C118: FINDING: a topic which becomes too long by its tag ends the module as well, after messages for the values before have been made.
* `fifo_replace_dangling_refuted` (C26): Finding: replacing an entry and removing the next one leaves a pointer to the freed entry in the buffer; the next read uses it.
* `fifo_replace_loses_refuted` (C26): Finding: keeping the first, replacing the second and removing the third entry loses the second one as well, while it is still counted.
* `fixp_ldouble_roundtrip_refuted` (C27): Except for the smallest number, where the negation overflows.
* `fixp_from_ldouble_large_refuted` (C27): Larger ones are not refused: 2^40 becomes 0.
* `fixp_hex_roundtrip_refuted` (C27): That of a negative number is parsed to another number.
* `fixp_parse_decimal_exact_refuted` (C27): A decimal text of a number which has an exact representation is not always parsed to it: 0.9375 is 15728640 units but gives one unit less.
* `fixp_parse_large_refuted` (C27): Numbers from 2^39 on are accepted but parsed to something else.
* `hdlc_shared_flag_refuted` (C05): C05, finding: two frames sharing one flag octet (legal HDLC) are not both delivered: the payload of the second is skipped as noise.
* `hex_encode_large_overflow_refuted` (C08): C08, finding: from 2^31 octets on, the size wraps in 32 bits and the loop always writes outside the allocation.
* `http_request_chunked_refuted` (C76): FINDING: the end of a request with a body made of chunks is found rightly, but the body handed to the program is the octets of the body together with as many octets beyond their end as the header is long: the length of the merged data is stored as the length of the body (http_part.c:762).
* `http_chunk_endless_refuted` (C76): FINDING: a response of 107 octets from a server keeps the client busy for ever: a chunk length near 2^64 makes the position of the next chunk wrap around to a chunk read before (http_part_parse.c:374-408). No number of rounds is enough.
* `http_chunk_extension_refuted` (C76): FINDING: chunk extensions, which a recipient must ignore, are refused (http_part_parse.c:262-298).
* `http_response_until_close_refuted` (C77): FINDING: a response without Content-Length is read until the connection is closed, but the length of its body is not stored then: whatever the body is, the program gets an empty one (http_part_parse.c:727-730, http_part.c:326-372).
* `http_response_bodyless_refuted` (C77): FINDING: responses which have no body by their code (1xx other than 101, and 304) are taken to last until the connection is closed (http_part_parse.c:720-730).
* `http_request_end_refuted` (C77): FINDING: requests the length of which is not clear or not understood, which must be refused because other recipients in front of the server may see another end, are accepted: with both a length and chunks the chunks are ignored, of several lengths the first is used, a list of encodings and a name with a blank before the colon are taken as no body (http_part_parse.c:702-725), and a field after a comma at the end of a line is swallowed (http_header_fields.c).
* `http_length_wrap_refuted` (C77): FINDING: the sum of the length of the header and a length told near 2^64 wraps around, so the message is taken to end within its header (http_part_parse.c:707).
* `http_link_abort_refuted` (C77): FINDING: a request with a Link field aborts the program (http_header_fields.c).
* `http_correct_field_refuted` (C77): FINDING: correct requests are refused when a field has an empty value or a value which ends in an equal sign, like many addresses in Referer fields.
* `url_encode_size_refuted` (C71): FINDING: encoding more than a third of 4 GB aborts the program (http_util.c:345).
* `url_decode_malformed_refuted` (C71): FINDING: an escape with one hexadecimal digit is taken, and the character after the digit is lost: "%1z" is read as the single octet 1, although it stands for nothing.
* `form_value_zero_refuted` (C72): FINDING: a value which starts with a zero octet is lost, as the field's value is set as for a zero terminated string (http_fields.c:128 [*value == '\0']).
* `form_space_refuted` (C72): FINDING: the space which ends the text becomes part of the last value, and what follows is dropped without notice: the fields after it are lost.
* `form_equals_refuted` (C72): FINDING: a value with an equals sign, which other implementations accept (only the first separates), makes the request fail.
* `quote_token_refuted` (C73): FINDING: values like "a=b" or "a/b" are written without quotes, although these characters may not appear in a token (RFC 7230 3.2.6); a receiver takes the value to end there.
* `quote_backslash_refuted` (C73): FINDING: a backslash is doubled when written, but not undone when read: each time a value is passed on it gets another.
* `quote_size_refuted` (C73): FINDING: the size of the result is computed with 32 bits; quoting two gigabytes writes behind the allocated memory (http_util.c:464).
* `uri_network_path_refuted` (C74): FINDING: a reference which starts with two slashes and a host (RFC 3986 4.2, "//host/path") is accepted, but the host is taken for the path.
* `uri_wss_refuted` (C74): FINDING: a URI for an encrypted websocket, "wss://", is taken for one without encryption and connected to port 80, as "ws" is compared before "wss" (http_util.c:1153-1158).
* `uri_behind_refuted` (C74): FINDING: where the text ends with the host, the octet behind it is read, which may not be there, and if it is a colon the program aborts (http_util.c:1023).
* `uri_relative_refuted` (C74): FINDING: paths which end with a colon or have "://" inside are refused, since the end of the text is taken for a complete match when searching.
* `uri_query_refuted` (C74): FINDING: a query directly behind the host is refused (RFC 3986 allows an empty path).
* `uri_prepend_refuted` (C74): FINDING: with an empty prefix the octet before the allocation is read, and overwritten if it is a slash (http_util.c:934).
* `increment_basic_restart_refuted` (C17): ... but finding: past the end of the range it does not always restart at [min]; the 32 bit sum may wrap to some other value of the range.
* `incrementer_restart_refuted` (C40): C40, finding: the hypothesis 0 < min is needed. An id of 0 in the DB reads as missing, so after a restart the ids jump back to the initial id.
* `mmap_wrap_refuted` (C33): C33, finding: near the top of the 64-bit range the size wraps: a request for 2^64 - 8 bytes is served with 16 bytes.
* `mmap_freed_available_refuted` (C33): C33, finding: freed memory is not always available again. Once a search has moved on to the end of the heap where no index fits, every later allocation is refused although everything has been freed.
* `mqtt_subscribe_full_refuted` (C80, C81): FINDING: A session holds 65536 subscriptions. A further one is refused, but the return value telling this is overwritten with the one of a callback in [rrr_mqtt_subscription_collection_append_unique_copy_from_collection] (mqtt_subscription.c:618-631): the SUBACK grants the subscription, the retained messages are sent, and the messages published later are not.
* `mqtt_retain_handling_refuted` (C82): FINDING: The retain handling option of a subscription (MQTT 5, 3.8.3.1) is read and stored, but never looked at: with the value 2 (do not send retained messages) they are sent all the same.
* `mqtt_resubscribe_retained_refuted` (C82): FINDING: A SUBSCRIBE with a filter which is subscribed to already does not send the retained messages again; MQTT (3.1.1: 3.8.4, 5: 3.8.4 with retain handling 0) requires it. A client which resumes its session and subscribes again, as they commonly do, is not told the current values.
* `mqtt_retained_size_refuted` (C82): FINDING: Retained messages are sent to a client even if they are larger than the maximum packet size it gave in CONNECT.
* `mqtt_session_never_expires_refuted` (C83): FINDING: A session which shall never expire (interval 0xffffffff, also used for every MQTT 3.1.1 client which connects without clean session) is deleted 20 seconds after its client disconnected: an expire time of 0 stands both for "never" and for "connected", and for the latter a missing heartbeat ends the session.
* `mqtt_session_resumed_refuted` (C83): FINDING: A session resumed more than 20 seconds after the last packet of the previous connection is deleted by the next run of the maintenance, unless another packet is read before: CONNECT resets the expire time but does not count as a heartbeat (that is done at the start of a read, when the connection has no session yet). The client has been told that the session is present; its subscriptions and messages are gone.
* `mqtt_clean_start_refuted` (C83): FINDING: A clean start does not discard the messages of QoS 1 and 2 which are queued for the previous session: they are sent in the new one, although the client is told that no session was present and has subscribed to nothing.
* `mqtt_will_delay_refuted` (C83): FINDING: The will delay is converted to microseconds in 32 bits (mqtt_session_ram.c:1016): a will with a delay of 4295 seconds is published after 33 milliseconds.
* `mqtt_will_take_over_refuted` (C83): FINDING: The will of a client is lost when another connection takes over its session; without a delay it should be published then (MQTT 5, 3.1.2.5; MQTT 3.1.1, 3.1.2.5: unless a DISCONNECT packet has been received).
* `mqtt_read_blob_refuted` (C78): FINDING: packets with Correlation Data or Authentication Data are legal but not read: [__rrr_mqtt_parse_property_blob] counts the length of the data twice. Here the PUBLISH is of the standard, has correlation data [1; 2], and closes the connection.
* `mqtt_puback_code_refuted` (C79): FINDING: a PUBACK with the reason "Packet identifier not found", which the standard does not give to PUBACK, is handed on.
* `mqtt_receive_abort_refuted` (C79): FINDING: a client of version 5 aborts the broker: a SUBSCRIBE with the legal option No Local (or Retain As Published) makes [rrr_mqtt_subscription_new] call [RRR_BUG].
* `mqtt_read_pieces_refuted` (C79): FINDING: what is accepted depends on how the octets arrive. A SUBSCRIBE of which the last octet (the options) is missing takes the first octet of the next packet in its stead, if that has arrived, and closes the connection otherwise: integers are only checked against what has been received, not against the end of the packet.
* `mqtt_read_props_end_refuted` (C79): FINDING: a property may run past the end of the properties: here their length is 1, the property takes 5 octets, and the packet is handed on.
* `mqtt_forward_empty_refuted` (C78): FINDING: a legal PUBLISH with an empty property (here Content Type) is handed on, but the packet made of it to be sent to a subscriber aborts the program.
* `mqtt_read_password_refuted` (C78): FINDING: the password is binary data by the standard, but a CONNECT of which it is not UTF-8 closes the connection.
* `mqtt_qos_suback_abort_refuted` (C84): FINDING: a broker which answers with SUBACK or UNSUBACK for the identifier of a message makes the client abort: the check of the types is an internal error, not an error of the remote (mqtt_session_ram.c:1563-1600).
* `mqtt_qos_repeated_refuted` (C84): FINDING: when PUBLISH of QoS 1 is repeated with DUP before the queues are tidied (the PUBACK was lost, or was late), the connection is closed without PUBACK. What is left makes the old message be delivered a third time, and the connection be closed again, when another message comes with the same identifier: here after message 8.
* `mqtt_qos_reused_refuted` (C84): FINDING: a remote which uses the identifier of a message of QoS 2 again as soon as it has got PUBCOMP, as it may, has its connection closed unless the queues were tidied between: the message released is still found.
* `mqtt_qos_receive_maximum_refuted` (C85): FINDING: a client whose Receive Maximum is 1, which is valid, never gets a message of QoS 1 or QoS 2: the message about to be sent is counted before the limit is checked, so that one less than allowed is in flight (the same for the limit of the session itself).
* `mqtt_qos_expired_refuted` (C85): FINDING: a message whose time has run out is not sent, but is not removed either: it stays in the queue with its identifier for as long as the session lives.
* `msg_accepted_in_bounds_refuted` (C12, C36): C12, finding: a 31 octet message announcing a topic of 65535 octets is accepted whatever memory follows it; its data length reads as 2^32 - 65534.
* `msg_receive_aborts_refuted` (C36): C36, finding: 18 octets with a correct header checksum stating a size of 17 abort the process.
* `log_send_receive_refuted` (C37): C37, finding: an empty text, a text of 65536 or more octets (truncated by the sender) or a prefix of 65535 or more is always refused by the receiver.
* `log_out_of_bounds_refuted` (C36, C37): C37, finding: a log message of 18 octets passes the size check (the subtraction wraps) and is read outside its memory.
* `stats_unpack_overflow_refuted` (C36): C38, finding: a received statistics message with 600 octets of data, within the accepted total size, overruns the 512 octet member of the (stack allocated) struct it is unpacked into.
* `msgdb_relative_refuted` (C95): FINDING: with a directory given relative to where the server is started, every request goes one directory further down, and nothing which was put can be got.
* `msgdb_nul_refuted` (C95): FINDING: a message whose topic has the octet NUL is received (the topic is valid UTF-8) and put with success, but can never be got: its length is compared with that of the C string.
* `msgdb_put_atomic_refuted` (C96): FINDING: PUT is not atomic. The file is truncated and then written: when the server is killed in between, the message the topic had is lost, and there is none.
* `msgdb_index_once_refuted` (C97): FINDING: a directory for whose files the time of a slice (150 ms) is not enough is started over in the next slice: messages are sent more than once.
* `msgdb_index_ends_refuted` (C97): FINDING: when every slice is too short, the iteration never ends, and the messages are sent again and again.
* `parse_comment_overread_refuted` (C35): When no zero octet follows the text (environment files), a comment which is not ended by a line end makes the octet after the buffer be read.
* `parse_end_overread_refuted` (C35): Likewise the rest of the line, at the end of a text without zero octet.
* `parse_subscript_abort_refuted` (C35): An empty name with subscript syntax, as in a configuration file with [[]], aborts the program.
* `parse_non_control_utf8_refuted` (C35): Text which is not ASCII is taken for control characters: nothing is matched.
* `passwd_plain_long_refuted` (C105): FINDING: without the TLS library the program is aborted for every password of 55 to 256 octets: the base64 text then has more than one line, the line break is removed when the hash is stored, and the check of the new hash fails.
* `passwd_plain_prefix_refuted` (C105): FINDING: without the TLS library another password is accepted, one which goes on after the right one: only as many octets as the stored text has are compared.
* `passwd_plain_short_read_refuted` (C105): FINDING: a password shorter than the one stored in base64 makes the check read after the end of the text it made.
* `passwd_bad_hash_refuted` (C105): FINDING: a hash in the file which has a short salt aborts the program which asks, and one with a short key makes it read after the end of the key.
* `passwd_newline_refuted` (C106): FINDING: a line break in the name of a user is not refused: the program ends with success, and every use of it afterwards fails.
* `passwd_many_permissions_refuted` (C106): FINDING: more than 32 permissions are written although they are not read again: the program ends with success, nobody whose line comes later is let in, and every use of the program afterwards fails.
* `passwd_crash_lost_refuted` (C107): FINDING: a program stopped between the two renames leaves no password file, and the next use of the program, whatever it is for and whether it succeeds or not, starts from no accounts and removes the file with .old after its name: all accounts are lost.
* `read_zero_size_refuted` (C29): C29 finding: a header with a correct checksum whose size is 0 aborts the process of the receiver.
* `read_pause_refuted` (C29): C29 findings. A sender which pauses for 30 seconds within a message loses what it sent before, and the rest is taken for the start of a message: no error is given.
* `read_truncated_eof_refuted` (C29): And if the connection is closed after the pause, this is reported as clean.
* `read_limit_refuted` (C29): With a size limit the chunks do matter: two small messages which come at once are dropped, the same messages one by one are accepted.
* `read_until_closed_refuted` (C29): A message which lasts until the connection is closed is cut short when the read function gives no octets without an error, as it does when a non-blocking socket has nothing to read: the rest of the message is treated as something new.
* `send_loop_network_order_refuted` (C88): FINDING: the module ip with ip_send_rrr_message turns a message to network order in place when it tries to send it, and the time to live is then read from the turned timestamp. A message which was not ready once never expires (unless its timestamp is a multiple of 256 microseconds), whatever ip_ttl_seconds is: it is still sent after any time.
* `send_loop_network_order_early_refuted` (C88): FINDING: for the same reason a message whose timestamp is a multiple of 65536 microseconds is dropped as too old after the first failed attempt, 10 microseconds after it was made, with a time to live of one hour.
* `send_loop_long_timeout_refuted` (C88): FINDING: a timeout longer than the time since 1970 makes every message time out at once: the difference wraps (the time to live is checked for this).
* `send_loop_seconds_refuted` (C88): FINDING: seconds in the configuration are multiplied without a check: a time to live of 18446744073710 seconds is less than half a second.
* `settings_empty_value_refuted` (C54): A value of no characters, which a Perl or Python program may store, aborts the program when it is asked for.
* `settings_long_name_refuted` (C54): Storing under a name of 244 or more characters is refused, but leaves a nameless setting behind; printing the settings then aborts the program.
* `settings_uint_refuted` (C54): A setting stored as a number aborts the program when it is read as a number.
* `settings_uint_range_refuted` (C54): Numbers of 2^64 or more are accepted and read as 2^64 - 1.
* `settings_yesno_prefix_refuted` (C54): Any value beginning with y, Y or 1 is a yes: also "100 %" and "yellow".
* `settings_pack_long_refuted` (C54): The settings of an instance which runs a program in a process of its own are sent back from there, which fails when one has 1024 octets or more.
* `settings_packed_name_refuted` (C54): A name of 243 characters may be stored but the check of received settings refuses it.
* `slot_write_incref_refuted` (C32): C32 findings. The function which adds a reference does so after the slot is unlocked: if the caller does not hold the lock of the holder, a reader can free the holder first.
* `slot_write_collection_refuted` (C32): And writing a collection of two holders reads the link of the first one after it was given to the slot, where a reader can have freed it.
* `stree_refused_changes_refuted` (C116): C116: FINDING: a message which is refused for the slash at the end of its path has still made branches, and made old ones seen: messages which are no longer sent stay.
* `stree_short_refuted` (C116): C116: FINDING: a path of a single character is refused although it has a level, while the same level is taken with a slash before it.
* `topic_linear_agrees_refuted` (C21): C21, finding: the linear matcher looks at the octet after the topic, which in a message is the first data octet. With '$' there, or with nothing readable there, the matchers disagree.
* `topic_match_standard_refuted` (C21): C21, findings: by the standard "a/#" matches "a", and "a/+" matches "a/$b".
* `filter_validate_nonempty_refuted` (C22): C22, finding: the empty filter is accepted too.
* `acl_subscribe_sound_refuted` (C23): C23, findings. An access list with the only entry "a/b" grants "a/+", which delivers "a/c" although no entry covers it. An entry denying "secret" after one allowing "#" does not keep a "#" subscription from delivering it.
* `int_import_size_refuted` (C41, C45): An array of 2^29 eight octet integers makes the size wrap to zero: memory outside the buffer is accessed, even for an empty buffer.
* `decimal_import_range_refuted` (C42): A number too large for 64 bits is accepted as a different one.
* `import_decided_fixp_refuted` (C44): Not so for fixed point numbers: a prefix of the text is taken as another number, or refused.
* `import_decided_msg_refuted` (C44): Nor for messages: with nothing read yet the import is refused instead of reported incomplete.
* `import_blob_size_refuted` (C45): Blobs whose total size wraps to zero are imported using nothing (the caller aborts then, array_tree.c:1364).
* `import_msg_size_refuted` (C45): A message header stating size zero, with correct checksum, also imports using nothing.
* `import_fixp_range_refuted` (C45): A fixed point number of 21 digits is converted with undefined result.
* `msg_import_many_refuted` (C46): Two messages of different size in one field are refused although they are complete and correct: the size of the first is used for both.
* `int_to_text_empty_refuted` (C48): A value without numbers makes the conversion write outside its buffer.
* `int_to_text_large_refuted` (C48): So does a value of 2^30 octets or a little more.
* `str_to_number_elements_refuted` (C48): A string value with element count zero makes the conversion to a number divide by zero; such values arrive in array messages.
* `udps_tail_loss_refuted` (C67): FINDING: the timer for sending is stopped when all frames of the window have been sent, and nothing but another message, or acknowledgements which tell of a gap, makes the sender send again; the periodic resending is commented out (udpstream.c:2160-2166). So if the last datagram is lost its message is not delivered, however often the ends are run, until the connection times out.
* `udps_reordered_refuted` (C67): FINDING: if the second datagram of a stream arrives before the first the receiver throws the stream away. No datagram is lost. The sender does not know: the reset it is sent carries the number of the frame where the sender looks for its connection.
* `udps_empty_refuted` (C67): FINDING: a message without data is accepted for sending but nothing is sent.
* `udps_full_refuted` (C67): FINDING: with 750 frames waiting for acknowledgement nothing more is accepted, and being refused does not start sending again: if the datagrams of a full buffer get lost nothing is sent any more.
* `udps_flood_refuted` (C68): FINDING: there is no limit to the frames kept, and the size of a message is a sum of 32 bits: 4194304 full frames make it zero, and the data is then written to memory of that size.
* `udps_freed_refuted` (C68): FINDING: a reset, or a stream which starts with another frame than the first, destroys the stream, after which its receive buffer is read once more (udpstream.c:1296): memory which has been freed. No hostile peer is needed: every ordinary reset does it.
* `utf8_nul_hides_tail_refuted` (C09): C09, finding: whatever follows a NUL octet is never looked at, so ill formed strings with an embedded NUL are accepted.
* `ws_interleaved_refuted` (C63): FINDING: a ping between the fragments of a message, which the standard allows, makes the message vanish: the first fragment is thrown away and the last is taken for a ping.
* `ws_pong_data_refuted` (C63): FINDING: the answer to a ping has no data, while it has to have that of the ping.
* `ws_stray_continuation_refuted` (C63): FINDING: a continuation of no message is given to the owner as a message, of the type of the message before.
* `ws_length_abort_refuted` (C64): FINDING: a length of 2^64 - 10 in ten octets from the network aborts the program.
* `ws_length_corrupt_refuted` (C64): FINDING: a length of 2^64 - 1 in a masked frame of fourteen octets from the network makes the program unmask, that is change, all memory after its buffer.
* `ws_reserved_refuted` (C64): FINDING: reserved bits, and frames from a client which are not masked, are accepted; the standard demands to close the connection.
* `ws_timeout_refuted` (C65): FINDING: with a limit of 4295 seconds a connection times out after less than a tenth of a second, as the microseconds are counted in 32 bits.

Noticed while reading, without a theorem:

* `msg_addr.c:82`: address messages of 19..146 octets are cloned with a copy of the full structure.
* a message of type SETTING passes the header check and is refused at dispatch.
* `mqtt_id_pool.c`: the debug path of release reads the word before the bound check; id 65536 wraps to 0.
* `perl5_types.c:80/216`: negative fixed point numbers in base 16.
* `array.c`: clone returns 0 when allocation fails; the dump divides by the element count; a tag of 2^32 - 1 octets allocates 0.
* `read.c`: a complete callback returning INCOMPLETE aborts at the next call; a NULL target function with initial size 0 never progresses.
* `message_broker.c:1306`: the write of a collection overwrites the error of a slot write.
* `mmap_channel.c`: a failed `shmat` is compared with NULL, and `shmctl(IPC_STAT)` with the segment id.
* `settings.c:650`: a missing `else`; replacing leaks the old data.
* The key which a websocket client sends when connecting has eight octets of chance instead of sixteen: `websocket_key_32` is declared as `uint64_t[]` (`websocket.h`), and `websocket.c:70-103` fills only the lower half of each.
- UDP-streams: `__rrr_udpstream_update_stream_remote` (udpstream.c, about 895-912) allocates `sizeof(struct sockaddr)` octets (16) but copies `addr_len` (28 for IPv6) and does not update `remote_addr_len`; a CONNECT frame is sent three times and creates three streams at the other end, of which two are reset later; the window a peer asks for is not limited. (Read in the code, not modelled.)


## Trusted base

* Coq's kernel (8.16.1).
* The correspondence between the model and the C code: it is checked by reading only; every definition cites its lines.
* What `Print Assumptions` prints, below.

### What is modelled

The functions cited in the `*Model.v` files, with their 32 and 64 bit arithmetic, buffer sizes, return codes and aborts.

### What is not modelled

* Allocation failure, logging, time (passed as a parameter where it matters), signals and the event loop.
* Weak memory effects and scheduling inside critical sections: transition systems step at the granularity of locks.
* `rrr_mmap.c`: the collection of heaps above a single heap.
* `type.c`: conversions of fixed point numbers to text and to unsigned integers, and blobs to text.
* `configuration.c`: blocks beginning with `{`, `<` and `(` (arrays, methods, routes) are handed to code which is a parameter of the model.
* HTTP/1: sending, multipart bodies, the upgrades to HTTP/2 and websocket, and closing of connections.
* MQTT: AUTH packets, topic aliases, the MQTT client's handling of packets, and the broker's other than sessions, subscriptions, forwarding, retained messages, wills and the handshakes of QoS 1 and 2 as cited.
* UDP-streams: addresses, connection set-up by name, and the regulation of the window.
* Password file: file locks and permission bits, the temporary file, prompts (what is typed is a parameter), the key derivation and the random salt (parameters), errors from the system.
* Message database: the client, the event queue of the server, disk errors (only crashes), and requests between the slices of an iteration. The digest is a parameter there (ShaModel has SHA-256) with the hypothesis that the topics used have different digests.
* Message broker: costumers without buffers (SlotModel has the slot), rate limiting, statistics, hooks before buffers, errors of callbacks, slots running out of memory, and registration of costumers.
* Third-party libraries (TLS, HTTP/2, HTTP/3, JSON, Perl, Python, Lua, libevent) and the code which wraps them.
* All files not cited in a `*Model.v` file.
* Of Modbus the module which uses the client (src/modules/p_modbus.c), its connections and its timers are not modelled, and memory for the client is taken to be there.
* Of the queues of data for sockets the addresses and the iteration for removal are not modelled, nor what TLS and QUIC do with the data.
* Of conversions the names in the configuration are not modelled, nor of the mangler module anything but the conversion of one value.
* Of the tree of statistics printing and the number of branches removed are not modelled, and all levels of a message have the same time.
* Of the reader of the command line the conversions of numbers, the marks of use and the usage are not modelled.
* Of the exploder module the configuration and the output buffer are not modelled.
* Of the averager module the configuration, the output buffer and the statistics are not modelled.

### What `Print Assumptions` lists

`Print Assumptions` is run on every theorem below in its file.  "closed" means the answer is "Closed under the global context": no axiom, of the standard library or otherwise, is used.


`AclProps.v`:
`acl_file_exact` closed;
`acl_file_unique` closed;
`acl_file_too_big` closed;
`acl_file_publish` closed;
`acl_file_subscribe` closed;
`acl_file_trailing_blank_refuted` closed;
`acl_file_zero_refuted` closed;

`ArrayDefProps.v`:
`array_def_safe` closed;
`array_def_layout_partial` closed;
`array_def_short_refuted` closed;
`array_def_sign_refuted` closed;

`ArrayProps.v`:
`array_round_trip` closed;
`array_network_round_trip` closed;
`array_too_large_refused` closed;
`array_pack_overflow_refuted` closed;
`array_iterate_in_bounds` closed;
`array_read_in_bounds` closed;
`array_read_returns_partial` closed;
`array_read_returns_refuted` closed;
`array_iterate_long_topic_refuted` closed;
`array_number_first_partial` closed;
`array_number_index_refuted` closed;
`array_push_unsigned_get` closed;
`array_push_signed_get` closed;
`array_tag_lookup` closed;
`array_message_tag_lookup` closed;
`array_message_has_tag_refuted` closed;
`array_split_exact` closed;
`array_split_zero_refuted` closed;
`array_edit_exact` closed;
`array_rotate_exact` closed;
`array_export_exact` closed;
`array_export_selection` closed;
`array_export_fixp_refuted` closed;

`ArrayTreeProps.v`:
`array_tree_import_exact_partial` closed;
`array_tree_octets` closed;
`array_tree_prefix_refuted` closed;
`array_tree_rewind_refuted` closed;
`array_tree_rewind_checked_refuted` closed;
`array_tree_import_safe_partial` closed;
`array_tree_count_refuted` closed;
`array_tree_abort_refuted` closed;
`array_tree_import_decided_partial` closed;

`AsdProps.v`:
`asd_once_partial` closed;
`asd_done_partial` closed;
`asd_no_loss_partial` closed;
`asd_run_safe` closed;
`asd_two_clients_refuted` closed;
`asd_client_restart_refuted` closed;
`asd_late_reset_refuted` closed;
`asd_receiver_restart_refuted` closed;
`asd_room_partial` closed;
`asd_halted_refuted` closed;
`asd_id` closed;

`AvgProps.v`:
`avg_interval_partial` closed;
`avg_readable` closed;
`avg_passed` closed;
`avg_timespan_refuted` closed;
`avg_sum_refuted` closed;
`avg_times_refuted` closed;
`avg_negative_refuted` closed;
`avg_broken_refuted` closed;

`Base64Props.v`:
`base64_roundtrip` closed;
`base64_encode_is_rfc4648` closed;
`base64_roundtrip_empty_refuted` closed;
`base64_encode_in_buffer` closed;
`base64url_roundtrip_refuted` closed;
`base64url_decode_rejects_unpadded` closed;
`base64url_roundtrip_partial` closed;
`base64url_encode_is_rfc4648` closed;
`base64_decode_is_rfc4648` closed;
`base64url_decode_is_rfc4648` closed;
`base64_decode_in_buffer` closed;

`BrokProps.v`:
`broker_order` closed;
`broker_shared_memory_refuted` closed;
`broker_events` closed;
`broker_complete` closed;
`broker_no_deadlock` closed;
`broker_progress` closed;
`broker_finish` closed;
`broker_shared_lost_refuted` closed;
`broker_backstop_partial` closed;
`broker_backstop_duplicate_refuted` closed;

`BusProps.v`:
`modbus_refines` closed;
`modbus_sent` closed;
`modbus_answered_once` closed;
`modbus_ids` closed;
`modbus_answer_arrives` closed;
`modbus_short_error_refuted` closed;
`modbus_leak_refuted` closed;

`ChannelProps.v`:
`channel_is_queue` closed;
`channel_fifo` closed;
`channel_shows_oldest` closed;
`channel_full_only_when_full` closed;
`channel_count_exact` closed;
`channel_progress` closed;
`channel_in_bounds` closed;
`channel_empty_message_refuted` closed;
`channel_error_stores_refuted` closed;
`channel_free_blocks_refuted` closed;

`ChkProps.v`:
`chunk_octets` closed;
`chunk_order` closed;
`chunk_callback_partial` closed;
`chunk_callback_refuted` closed;
`chunk_urgent_refuted` closed;
`chunk_error_lost_refuted` closed;

`CmdProps.v`:
`cmd_written` closed;
`cmd_taken_partial` closed;
`cmd_found` closed;
`cmd_commas_partial` closed;
`cmd_commas_refuted` closed;
`cmd_own_name_refuted` closed;
`cmd_letter_value_refuted` closed;
`cmd_unused_refuted` closed;

`CondProps.v`:
`cond_exact_partial` closed;
`cond_right_exact` closed;
`cond_chain_refuted` closed;
`cond_single_refuted` closed;
`cond_subtract_refuted` closed;
`cond_rpn_refuted` closed;
`cond_short_circuit_refuted` closed;
`cond_large_refuted` closed;
`cond_interpret_safe` closed;
`cond_literals` closed;
`cond_abort_refuted` closed;
`cond_undefined_refuted` closed;

`ConfigProps.v`:
`config_roundtrip` closed;
`config_safe` closed;
`config_missing_name_refuted` closed;
`config_truncated_refuted` closed;
`config_unended_refuted` closed;

`ConvProps.v`:
`conv_number_text` closed;
`conv_text_number` closed;
`conv_round_trip` closed;
`conv_hex_partial` closed;
`conv_characters` closed;
`conv_kept` closed;
`conv_vain` closed;
`conv_refused` closed;
`conv_hex_string_refuted` closed;
`conv_hex_size_refuted` closed;
`recipe_partial` closed;
`recipe_last_refuted` closed;
`recipe_safe` closed;
`recipe_elements_refuted` closed;

`Crc32Props.v`:
`crc32_is_polynomial_remainder` closed;
`crc32_detects_bursts` closed;
`crc32_detects_octet_changes` closed;
`crc32_verify_exact` closed;

`DiscernProps.v`:
`discern_runs_as_written` closed;
`discern_accepts_written_only` closed;
`discern_method_keyword_refuted` closed;
`discern_parse_safe` closed;
`discern_execute_safe` closed;
`route_names_checked` closed;
`route_receivers_partial` closed;
`route_topic_data_refuted` closed;
`route_tag_nul_refuted` closed;

`EnvProps.v`:
`env_exact` closed;
`env_roundtrip` closed;
`env_comment_overread_refuted` closed;

`ExpProps.v`:
`exp_values_partial` closed;
`exp_others` closed;
`exp_damaged_refuted` closed;
`exp_topic_refuted` closed;

`FifoProps.v`:
`fifo_history_exact` closed;
`fifo_exactly_once` closed;
`fifo_merge_concat` closed;
`fifo_rep_sound` closed;
`fifo_search_in_order` closed;
`fifo_stays_sorted` closed;
`fifo_ordered_place` closed;
`fifo_replace_exact_partial` closed;
`fifo_replace_dangling_refuted` closed;
`fifo_replace_loses_refuted` closed;

`FixpProps.v`:
`fixp_ldouble_roundtrip` closed;
`fixp_ldouble_roundtrip_refuted` closed;
`fixp_from_ldouble_truncates` closed;
`fixp_from_ldouble_large_refuted` closed;
`fixp_hex_roundtrip_partial` closed;
`fixp_hex_text_fits` closed;
`fixp_hex_roundtrip_refuted` closed;
`fixp_parse_hex_exact` closed;
`fixp_parse_whole_exact` closed;
`fixp_parse_close` closed;
`fixp_parse_decimal_exact_refuted` closed;
`fixp_parse_large_refuted` closed;
`fixp_parse_accepts_literals` closed;
`fixp_parse_never_aborts` closed;

`HdlcProps.v`:
`hdlc_roundtrip` closed;
`hdlc_export_exact` closed;
`hdlc_frames_in_order` closed;
`hdlc_parse_iff_framed` closed;
`hdlc_shared_flag_refuted` closed;
`hdlc_chunking` closed;
`hdlc_chunking_all` closed;
`hdlc_no_overflow` closed;

`HexProps.v`:
`hex_encode_exact` closed;
`hex_encode_injective` closed;
`hex_encode_large_overflow_refuted` closed;

`Http1Props.v`:
`http_request_partial` closed;
`http_request_body_forbidden_partial` closed;
`http_response_partial` closed;
`http_response_chunked_partial` closed;
`http_request_chunked_refuted` closed;
`http_chunk_endless_refuted` closed;
`http_chunk_extension_refuted` closed;
`http_response_until_close_refuted` closed;
`http_response_bodyless_refuted` closed;
`http_request_end_refuted` closed;
`http_length_wrap_refuted` closed;
`http_link_abort_refuted` closed;
`http_correct_field_refuted` closed;

`HttpUtilProps.v`:
`url_encode_standard_partial` closed;
`url_encode_size_refuted` closed;
`url_decode_standard` closed;
`url_round_trip` closed;
`url_decode_safe` closed;
`url_decode_malformed_refuted` closed;
`url_endpoint_and_query` closed;
`form_parse_partial` closed;
`form_trailing_partial` closed;
`form_uri_partial` closed;
`form_round_trip_partial` closed;
`form_parse_safe` closed;
`form_value_zero_refuted` closed;
`form_space_refuted` closed;
`form_equals_refuted` closed;
`quote_standard_partial` closed;
`quote_refused` closed;
`quote_round_trip_partial` closed;
`unquote_comment_partial` closed;
`quote_token_refuted` closed;
`quote_backslash_refuted` closed;
`quote_size_refuted` closed;
`uri_absolute_partial` closed;
`uri_relative_partial` closed;
`uri_host_port` closed;
`uri_safe_partial` closed;
`uri_host_legal` closed;
`uri_flags_right` closed;
`uri_network_path_refuted` closed;
`uri_wss_refuted` closed;
`uri_behind_refuted` closed;
`uri_relative_refuted` closed;
`uri_query_refuted` closed;
`uri_prepend_partial` closed;
`uri_prepend_refuted` closed;

`IdPoolProps.v`:
`id_pool_correct` closed;
`id_not_reused_before_release` closed;
`id_available_after_release` closed;

`IncProps.v`:
`increment_mod_next_in_class` closed;
`increment_mod_no_collision` closed;
`increment_basic_in_range` closed;
`increment_basic_restart_refuted` closed;
`prefix_roundtrip` closed;
`prefix_injective` closed;
`prefix_check_exact` closed;
`increment_verify_exact` closed;
`bits_to_max_exact` closed;
`incrementer_ids_follow` closed;
`incrementer_outputs_distinct` closed;
`incrementer_no_assertion` closed;
`incrementer_restart_refuted` closed;

`MapProps.v`:
`map_replace_get` closed;
`map_add_prepend_get` closed;
`map_replace_confirmed` closed;
`map_parse_pair_exact` closed;

`MmapProps.v`:
`mmap_history` closed;
`mmap_wrap_refuted` closed;
`mmap_fresh_serves` closed;
`mmap_free_forgets_refusals` closed;
`mmap_freed_available_refuted` closed;

`MqttBrokerProps.v`:
`mqtt_broker_never_aborts_partial` closed;
`mqtt_unsuback_partial` closed;
`mqtt_subscribe_full_refuted` closed;
`mqtt_forward_partial` closed;
`mqtt_retained_partial` closed;
`mqtt_retain_handling_refuted` closed;
`mqtt_resubscribe_retained_refuted` closed;
`mqtt_retained_size_refuted` closed;
`mqtt_session_kept_partial` closed;
`mqtt_will_maintain_partial` closed;
`mqtt_will_disconnect_partial` closed;
`mqtt_session_never_expires_refuted` closed;
`mqtt_session_resumed_refuted` closed;
`mqtt_clean_start_refuted` closed;
`mqtt_will_delay_refuted` closed;
`mqtt_will_take_over_refuted` closed;

`MqttProps.v`:
`mqtt_write_standard` closed;
`mqtt_read_standard` closed;
`mqtt_round_trip` closed;
`mqtt_read_prefix` closed;
`mqtt_read_blob_refuted` closed;
`mqtt_receive_any_partial` closed;
`mqtt_receive_vetted_partial` closed;
`mqtt_puback_code_refuted` closed;
`mqtt_receive_abort_refuted` closed;
`mqtt_read_pieces_refuted` closed;
`mqtt_read_props_end_refuted` closed;
`mqtt_forward_empty_refuted` closed;
`mqtt_read_password_refuted` closed;

`MqttQosProps.v`:
`mqtt_qos_never_aborts_partial` closed;
`mqtt_qos_suback_abort_refuted` closed;
`mqtt_qos_receiver_partial` closed;
`mqtt_qos_repeated_refuted` closed;
`mqtt_qos_reused_refuted` closed;
`mqtt_qos_ids_distinct` closed;
`mqtt_qos_kept` closed;
`mqtt_qos_sent` closed;
`mqtt_qos_receive_maximum_refuted` closed;
`mqtt_qos_expired_refuted` closed;
`mqtt_qos_delivery_partial` closed;
`mqtt_qos_pair_never_aborts_partial` closed;

`MsgProps.v`:
`msg_create_send_receive` closed;
`msg_send_receive` closed;
`msg_header_burst_rejected` closed;
`msg_header_checksum_altered_rejected` closed;
`msg_data_burst_rejected` closed;
`msg_accepted_in_bounds_partial` closed;
`msg_accepted_in_bounds_refuted` closed;
`msg_new_reads_back` closed;
`msg_new_too_large_refused` closed;
`msg_topic_set_exact` closed;
`msg_set_type_class_exact` closed;
`msg_topic_equals_iff` closed;
`msg_receive_safe_partial` closed;
`msg_receive_aborts_refuted` closed;
`log_send_receive` closed;
`log_send_receive_refuted` closed;
`log_out_of_bounds_refuted` closed;
`stats_send_receive` closed;
`stats_unpack_overflow_refuted` closed;

`MsgdbProps.v`:
`msgdb_history` closed;
`msgdb_relative_refuted` closed;
`msgdb_nul_refuted` closed;
`msgdb_crash` closed;
`msgdb_put_atomic_refuted` closed;
`msgdb_tidy_partial` closed;
`msgdb_index_partial` closed;
`msgdb_index_once_refuted` closed;
`msgdb_index_ends_refuted` closed;

`ParseProps.v`:
`parse_in_bounds` closed;
`parse_goes_forward` closed;
`parse_skip_exact` closed;
`parse_comment_exact` closed;
`parse_word_exact` closed;
`parse_word_case_exact` closed;
`parse_letters_exact` closed;
`parse_until_exact` closed;
`parse_line_exact` closed;
`parse_name_complete` closed;
`parse_name_sound` closed;
`parse_split_exact` closed;
`parse_extract_until_exact` closed;
`parse_strip_exact` closed;
`parse_trim_exact` closed;
`parse_location_exact` closed;
`parse_comment_overread_refuted` closed;
`parse_end_overread_refuted` closed;
`parse_subscript_abort_refuted` closed;
`parse_non_control_utf8_refuted` closed;

`PwdProps.v`:
`passwd_authenticate` closed;
`passwd_hash` closed;
`passwd_plain_short_partial` closed;
`passwd_hash_form` closed;
`passwd_plain_long_refuted` closed;
`passwd_plain_prefix_refuted` closed;
`passwd_plain_short_read_refuted` closed;
`passwd_bad_hash_refuted` closed;
`passwd_history` closed;
`passwd_malformed` closed;
`passwd_names` closed;
`passwd_newline_refuted` closed;
`passwd_many_permissions_refuted` closed;
`passwd_crash` closed;
`passwd_crash_lost_refuted` closed;

`ReadProps.v`:
`read_no_overflow` closed;
`read_reassembles` closed;
`read_chunking_independent` closed;
`read_takes_all` closed;
`read_drops_justified` closed;
`read_time_exact` closed;
`read_never_aborts` closed;
`read_aborts_only_on_zero` closed;
`read_zero_size_refuted` closed;
`read_flush_gives_all` closed;
`read_eof_complete` closed;
`read_messages` closed;
`read_pause_refuted` closed;
`read_truncated_eof_refuted` closed;
`read_limit_refuted` closed;
`read_until_closed_refuted` closed;

`SendLoopProps.v`:
`send_loop_conserves` closed;
`send_loop_progress` closed;
`send_loop_due_partial` closed;
`send_loop_network_order_refuted` closed;
`send_loop_network_order_early_refuted` closed;
`send_loop_long_timeout_refuted` closed;
`send_loop_seconds_refuted` closed;
`send_loop_first` closed;
`send_loop_order_partial` closed;

`SettingsProps.v`:
`settings_history` closed;
`settings_store_read` closed;
`settings_commas_exact` closed;
`settings_empty_value_refuted` closed;
`settings_long_name_refuted` closed;
`settings_uint_refuted` closed;
`settings_uint_range_refuted` closed;
`settings_yesno_prefix_refuted` closed;
`settings_pack_long_refuted` closed;
`settings_pack_exact` closed;
`settings_packed_name_refuted` closed;

`ShaProps.v`:
`sha256_is_fips` closed;
`sha256_calculate_is_fips` closed;
`sha1_is_fips` closed;
`websocket_server_accept` closed;
`websocket_client_takes` closed;
`websocket_accept_agree` closed;

`SlotProps.v`:
`slot_each_once_in_order` closed;
`slot_gives_next` closed;
`slot_no_overwrite` closed;
`slot_read_serves` closed;
`slot_write_stores` closed;
`slot_never_aborts` closed;
`slot_statistics` closed;
`slot_without_count` closed;
`slot_count_exact` closed;
`slot_count_set_keeps` closed;
`slot_no_use_after_free_partial` closed;
`slot_references_exact` closed;
`slot_write_incref_refuted` closed;
`slot_write_collection_refuted` closed;

`StreeProps.v`:
`stree_table` closed;
`stree_answer` closed;
`stree_fresh` closed;
`stree_old` closed;
`stree_given` closed;
`stree_leaf` closed;
`stree_kind` closed;
`stree_refused_changes_refuted` closed;
`stree_short_refuted` closed;

`TopicProps.v`:
`topic_match_exact` closed;
`topic_linear_agrees_partial` closed;
`topic_linear_agrees_refuted` closed;
`topic_match_standard_partial` closed;
`topic_match_standard_refuted` closed;
`filter_validate_exact` closed;
`filter_validate_nonempty_refuted` closed;
`name_validate_exact` closed;
`validated_match_never_aborts` closed;
`acl_publish_exact` closed;
`acl_subscribe_exact` closed;
`acl_subscribe_sound_partial` closed;
`acl_subscribe_sound_refuted` closed;

`TypeProps.v`:
`str_export_import` closed;
`str_import_iff` closed;
`int_import_exact` closed;
`int_import_incomplete` closed;
`int_import_size_refuted` closed;
`decimal_import_iff` closed;
`decimal_import_range_refuted` closed;
`blob_import_iff` closed;
`separator_import_iff` closed;
`stx_import_iff` closed;
`nsep_import_iff` closed;
`import_decided_partial` closed;
`import_decided_fixp_refuted` closed;
`import_decided_msg_refuted` closed;
`import_safe_partial` closed;
`import_blob_size_refuted` closed;
`import_msg_size_refuted` closed;
`import_fixp_range_refuted` closed;
`msg_import_exact` closed;
`msg_import_many_refuted` closed;
`value_pack_unpack` closed;
`value_pack_messages` closed;
`value_pack_empty_refused` closed;
`int_to_text_exact_partial` closed;
`int_to_text_empty_refuted` closed;
`int_to_text_large_refuted` closed;
`str_to_number_elements_refuted` closed;

`UdpsProps.v`:
`udps_delivered_as_queued` closed;
`udps_run_safe` closed;
`udps_acknowledged_partial` closed;
`udps_retained_partial` closed;
`udps_tail_loss_refuted` closed;
`udps_reordered_refuted` closed;
`udps_empty_refuted` closed;
`udps_full_refuted` closed;
`udps_datagram_round_trip` closed;
`udps_datagram_damaged` closed;
`udps_datagram_safe` closed;
`udps_hostile_partial` closed;
`udps_flood_refuted` closed;
`udps_freed_refuted` closed;
`udps_round` closed;

`Utf8Props.v`:
`utf8_validate_iff_well_formed` closed;
`utf8_iterate_delivers` closed;
`utf8_get_character_exact` closed;
`utf8_nul_hides_tail_refuted` closed;

`WsProps.v`:
`ws_receive_partial` closed;
`ws_send_standard` closed;
`ws_round_trip` closed;
`ws_interleaved_refuted` closed;
`ws_pong_data_refuted` closed;
`ws_stray_continuation_refuted` closed;
`ws_frame_safe_partial` closed;
`ws_length_abort_refuted` closed;
`ws_length_corrupt_refuted` closed;
`ws_refuses` closed;
`ws_reserved_refuted` closed;
`ws_close_ends` closed;
`ws_timeout_partial` closed;
`ws_ping_partial` closed;
`ws_timeout_refuted` closed;
